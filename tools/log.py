#!/usr/bin/env python3
"""usage: log.py OUT.jsonl ...  Writes seeded/LOG.jsonl from the outputs of mutate.py and tools/tightened.json
({mutant id: {"theorems": [...], "note": "..."}})."""
import json, os, sys
root = os.path.dirname(os.path.dirname(os.path.abspath(__file__)))
tight = json.load(open(root + '/tools/tightened.json'))
# their files take longer than the limit of the runs even without an edit, so that they "fail" for every edit above them
SLOW = {'c86_same_rank_refuted', 'c78_missing_refuted'}
n = 0
with open(root + '/seeded/LOG.jsonl', 'w') as out:
    for f in sys.argv[1:]:
        for l in open(f):
            x = json.loads(l)
            t = tight.get(x['id'], {})
            failed = [f for f in x.get('failed', []) if f not in SLOW]
            late = [f for f in x.get('failed', []) if f in SLOW]
            if x['result'] == 'killed' and not failed: x['result'] = 'example' if x.get('examples') else 'survived'
            e = {'id': x['id'], 'definition': f"{x['file']}.v: {x['definition']}", 'edit': {'old': x['old'], 'new': x['new']},
                 'claim': x['claim'], 'properties': x['expect'], 'result': x['result'], 'failed': failed,
                 'failed_examples': x.get('examples', []), 'tightened': t.get('theorems', [])}
            if late: e['not_counted'] = late
            if 'note' in t: e['note'] = t['note']
            out.write(json.dumps(e, ensure_ascii=False) + '\n')
            n += 1
print(n, 'attempts')
