#!/usr/bin/env python3
"""mutlog.py mutants.json out.jsonl... : write seeded/LOG.jsonl from the results of mutate.py.

Later result files override earlier ones; mutants that could not be judged (a statement of the model
no longer type-checks) are left out. TIGHTENED records the theorems added or strengthened because a
mutant survived."""
import json, os, sys
ROOT = os.path.dirname(os.path.dirname(os.path.abspath(__file__)))
TIGHTENED = json.load(open(ROOT + '/tools/tightened.json'))
muts = json.load(open(sys.argv[1]))
res = {}
for f in sys.argv[2:]:
    for l in open(f):
        r = json.loads(l)
        if r.get('error') or (not r['theorems'] and r['unbuilt']):
            continue
        res[r['id']] = r
n = s = 0
with open(ROOT + '/seeded/LOG.jsonl', 'w') as out:
    for m in muts:
        r = res.get(m['id'])
        if r is None:
            continue
        t = TIGHTENED.get(m['id'], {})
        n += 1
        if not r['theorems']:
            s += 1
            print('survivor', m['id'], m['definition'], m['edit'])
        out.write(json.dumps({
            'id': m['id'], 'definition': m['file'] + ': ' + m['definition'], 'edit': m['edit'],
            'old': m['old'], 'new': m['new'], 'breaks': m['claims'],
            'result': 'caught' if r['theorems'] else 'survived',
            'theorems_failed': r['theorems'], 'proofs_failed': r['proofs'],
            'survived_before': bool(t), 'theorems_tightened': t.get('theorems', []), 'note': t.get('note', '')}) + '\n')
print(n, 'logged', s, 'survivors')
