#!/usr/bin/env python3
"""Regenerate MANIFEST.json from properties.jsonl, the theorem files and tools/notes.json."""
import json, re, glob, os
root = os.path.dirname(os.path.dirname(os.path.abspath(__file__)))
props = [json.loads(l) for l in open(root + '/properties.jsonl')]
notes = json.load(open(root + '/tools/notes.json'))
thms = {}
for f in sorted(glob.glob(root + '/rocq/theories/Props/*.v')):
    for m in re.finditer(r'^Theorem (C\d\d+)_(\w+)', open(f).read(), re.M):
        thms.setdefault(m.group(1), []).append(m.group(1) + '_' + m.group(2))
claims = []
for p in props:
    i = p['id']
    t = thms.get(i, [])
    ref = [x for x in t if x.endswith('_refuted')]
    if not t:
        st = 'not_applicable'
        note = notes.get(i, 'Not yet modelled.')
    elif ref:
        st = 'partial'
        note = 'REFUTED by theorem ' + ', '.join(ref) + '. ' + notes.get(i, '')
    elif any(x.endswith('_partial') for x in t):
        st = 'partial'
        note = notes.get(i, '')
    else:
        st = 'proved'
        note = notes.get(i, '')
    claims.append({'property': i, 'status': st, 'theorems': t, 'note': note.strip()})
json.dump({'claims': claims}, open(root + '/MANIFEST.json', 'w'), indent=1)
for c in claims:
    if c['theorems']:
        print(c['property'], c['status'], len(c['theorems']), '' if c['note'] else 'NO NOTE')
