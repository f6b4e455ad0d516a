#!/usr/bin/env python3
"""Mutation runner.  usage: mutate.py BASE MUTANTS.json OUT.jsonl [jobs]

BASE is a built copy of rocq/ outside the repository.  Each mutant is
{"id", "file", "old", "new", "count"?, "definition", "claim", "expect": ["C01", ...]}.
The edit is applied to a scratch copy; the files that depend on it are recompiled in order; a proof that fails is
replaced by Admitted so that the remaining ones can be checked; a theorem of a Props file counts as failed when its
own proof fails or when Print Assumptions lists an admitted lemma beneath it."""
import json, os, re, shutil, subprocess, sys, time
from concurrent.futures import ThreadPoolExecutor
BASE, MUT, OUT = sys.argv[1:4]
JOBS = int(sys.argv[4]) if len(sys.argv) > 4 else 3
FILES = [l.strip()[9:-2] for l in open(BASE + '/_CoqProject') if l.startswith('theories/')]
def requires(x):
    s = open(f'{BASE}/theories/{x}.v').read()
    r = set()
    for m in re.finditer(r'From Verif Require\s+(?:Import\s+|Export\s+)?([^.]*)\.', s): r |= set(m.group(1).split())
    return r & set(FILES)
DEP = {x: requires(x) for x in FILES}
def topo():
    done, out = set(), []
    def go(x):
        if x in done: return
        done.add(x)
        for y in sorted(DEP[x]): go(y)
        out.append(x)
    for x in FILES: go(x)
    return out
ORDER = topo()
# optional file "times" in BASE: seconds and path of each file of the unchanged build
LIMIT = {}
if os.path.exists(BASE + '/times'):
    for l in open(BASE + '/times'): LIMIT[l.split()[1][9:-2]] = int(4 * float(l.split()[0]) + 40)
def dependents(x):
    d = {x}
    for y in ORDER:
        if DEP[y] & d: d.add(y)
    return [y for y in ORDER if y in d]
HEAD = re.compile(r'^[ \t]*(?:Local |Global |#\[[^\]]*\]\s*)?(Theorem|Lemma|Example|Corollary|Fact|Remark|Let|Definition|Instance|Fixpoint|Program Definition)\s+(\w+)', re.M)
def run(dir, x, limit):
    cmd = ['timeout', str(limit), 'coqc', '-q', '-time', '-w', 'none', '-Q', 'theories', 'Verif', f'theories/{x}.v']
    p = subprocess.run(cmd, cwd=dir, stdout=subprocess.PIPE, stderr=subprocess.PIPE, text=True, errors='replace')
    return p.returncode, p.stdout, p.stderr
def admit(dir, x, pos, admitted):
    """replace the proof around byte position pos; returns the name or None"""
    path = f'{dir}/theories/{x}.v'
    s = open(path, 'rb').read().decode()
    head = None
    for m in HEAD.finditer(s):
        if m.start() <= pos: head = m
        else: break
    if head is None: return None
    pr = re.compile(r'\bProof\b[^.]*\.(?=\s)').search(s, head.end())
    if pr is None or pr.start() > pos: return None
    q = re.compile(r'\b(Qed|Defined)\.').search(s, pr.end())
    if q is None: return None
    s = s[:pr.start()] + 'Proof. Admitted.' + s[q.end():]
    open(path, 'wb').write(s.encode())
    admitted.append((x, head.group(1), head.group(2)))
    return head.group(2)
def one(mu):
    t0 = time.time()
    dir = f'/tmp/mutrun/{mu["id"]}'
    shutil.rmtree(dir, ignore_errors=True)
    shutil.copytree(BASE, dir, symlinks=True)
    path = f'{dir}/theories/{mu["file"]}.v'
    s = open(path).read()
    n = s.count(mu['old'])
    if n != mu.get('count', 1):
        shutil.rmtree(dir); return {**mu, 'result': 'invalid', 'why': f'{n} occurrences'}
    open(path, 'w').write(s.replace(mu['old'], mu['new']))
    admitted, blocks, invalid = [], {}, None
    for x in dependents(mu['file']):
        for k in range(60):
            rc, out, err = run(dir, x, LIMIT.get(x, 60))
            if rc == 0: break
            if rc == 124:
                ch = re.findall(r'^Chars (\d+) - (\d+) ', out, re.M)
                pos = int(ch[-1][1]) + 2 if ch else 0
            else:
                m = re.search(r'File "\./theories/\w+\.v", line (\d+), characters (\d+)-(\d+):\nError', err)
                if not m: invalid = err[-300:]; break
                lines = open(f'{dir}/theories/{x}.v', 'rb').read().split(b'\n')
                pos = len((b'\n'.join(lines[:int(m.group(1)) - 1]) + b'\n' + lines[int(m.group(1)) - 1][:int(m.group(2))]).decode())
            if admit(dir, x, pos, admitted) is None: invalid = f'{x}: {err[-400:]}'; break
        if invalid: break
        if x.startswith('Props_'):
            src = open(f'{dir}/theories/{x}.v').read()
            names = re.findall(r'^Print Assumptions (\w+)\.', src, re.M)
            out = re.sub(r'^Chars \d+ - \d+ .*\n', '', out, flags=re.M)
            bl = re.split(r'^(?=Closed under the global context|Axioms:)', out, flags=re.M)
            bl = [b for b in bl if b.startswith('Closed') or b.startswith('Axioms')]
            for nme, b in zip(names, bl): blocks[nme] = b
            if len(names) != len(bl): invalid = f'{x}: {len(names)} Print Assumptions, {len(bl)} answers'; break
    shutil.rmtree(dir, ignore_errors=True)
    adm = {a for _, _, a in admitted}
    failed = sorted({a for x, kd, a in admitted if kd == 'Theorem'} | {n for n, b in blocks.items() if any(re.search(r'(^|[.\s])' + a + r'\b', b) for a in adm)})
    failed = [f for f in failed if re.match(r'c\d\d+_', f)]
    ex = sorted({a for x, kd, a in admitted if kd == 'Example'})
    r = {**mu, 'result': 'invalid' if invalid else ('killed' if failed else ('example' if ex else 'survived')), 'failed': failed, 'examples': ex, 'lemmas': [a for x, kd, a in admitted if kd not in ('Theorem', 'Example')], 'wall': round(time.time() - t0)}
    if invalid: r['why'] = invalid
    return r
os.makedirs('/tmp/mutrun', exist_ok=True)
mutants = json.load(open(MUT))
done = set()
if os.path.exists(OUT): done = {json.loads(l)['id'] for l in open(OUT)}
with ThreadPoolExecutor(JOBS) as ex:
    def go(m):
        try: r = one(m)
        except Exception as e: r = {**m, 'result': 'error', 'why': repr(e)}
        with open(OUT, 'a') as f: f.write(json.dumps(r) + '\n')
        print(r['id'], r['result'], ' '.join(r.get('failed', [])), r.get('why', '')[:200], r.get('wall'), flush=True)
    list(ex.map(go, [m for m in mutants if m['id'] not in done]))
