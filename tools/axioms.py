"""Write AXIOMS.md: the axioms Print Assumptions lists for every theorem of the Props_ files.
Run from /verif after a build."""
import os, re, subprocess, glob, tempfile

here = os.path.dirname(os.path.dirname(os.path.abspath(__file__)))
theories = os.path.join(here, 'rocq', 'theories')
result = {}
for path in sorted(glob.glob(os.path.join(theories, 'Props_*.v'))):
    mod = os.path.basename(path)[:-2]
    names = re.findall(r'^Theorem\s+(c\d\d+_\w+)', open(path).read(), re.M)
    with tempfile.TemporaryDirectory() as tmp:
        src = os.path.join(tmp, 'Ax.v')
        with open(src, 'w') as out:
            out.write('From Verif Require %s.\n' % mod)
            for n in names:
                out.write('Goal True. idtac "@@ %s". Abort.\nPrint Assumptions %s.%s.\n' % (n, mod, n))
        text = subprocess.run(['coqc', '-Q', theories, 'Verif', src], capture_output=True, text=True, check=True).stdout
    for part in text.split('@@ ')[1:]:
        name, _, body = part.partition('\n')
        result[name.strip()] = tuple(sorted(re.findall(r'^([A-Za-z_][\w.\']*)\s*(?::|$)', body, re.M))) \
            if 'Closed under' not in body else ()

def short(a): return a.split('.')[-1]
groups = {}
for n, ax in result.items():
    groups.setdefault(tuple(sorted(a for a in ax if a != 'Axioms')), []).append(n)
with open(os.path.join(here, 'AXIOMS.md'), 'w') as out:
    out.write('# Axioms per theorem\n\nWritten by `tools/axioms.py` from `Print Assumptions`.  All axioms are the Coq standard library\'s.\n')
    for ax in sorted(groups, key=lambda a: (len(a), a)):
        out.write('\n## %s\n\n' % (', '.join('`%s`' % a for a in ax) or 'No axioms (closed under the global context)'))
        for n in sorted(groups[ax]):
            out.write('- `%s`\n' % n)
