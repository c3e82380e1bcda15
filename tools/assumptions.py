#!/usr/bin/env python3
"""Completes DESIGN.md with what Print Assumptions lists for every theorem of Props/ (needs a built tree)."""
import glob, os, re, subprocess, collections
R = '/verif/rocq'
rows = collections.OrderedDict()
for f in sorted(glob.glob(R + '/theories/Props/*.v')):
    b = os.path.basename(f)[:-2]
    o = subprocess.run(['coqc', '-w', 'none', '-Q', 'theories', 'Verif', f, '-o', '/tmp/%s.vo' % b], cwd=R, capture_output=True, text=True).stdout
    names = re.findall(r'^Print Assumptions (\w+)\.', open(f).read(), re.M)
    blocks = [x for x in re.split(r'(?=^Axioms:|^Closed under the global context)', o, flags=re.M) if x.startswith(('Axioms:', 'Closed'))]
    assert len(names) == len(blocks), (b, len(names), len(blocks))
    for n, x in zip(names, blocks):
        ax = re.findall(r'^([\w.]+)\s*:', x, re.M) if x.startswith('Axioms') else []
        ax = [a for a in ax if a != 'Axioms']
        rows[n] = (b, ax)
short = collections.OrderedDict()
for b, ax in rows.values():
    for a in ax:
        short.setdefault(a, len(short) + 1)
def key(n): return (int(n[1:3]), n)
MARK = '### Print Assumptions of every property theorem'
out = [MARK, '', 'Generated by `tools/assumptions.py`. "closed" is "Closed under the global context". The numbers are axioms of',
       "Coq's standard library (real numbers, functional extensionality, excluded middle):", '']
out += ['%d. `%s`' % (i, a) for a, i in short.items()]
out += ['', '| theorem | file | assumptions |', '|---|---|---|']
for n in sorted(rows, key=key):
    b, ax = rows[n]
    out.append('| `%s` | %s | %s |' % (n, b, ', '.join(str(short[a]) for a in ax) if ax else 'closed'))
d = open('/verif/DESIGN.md').read().split(MARK)[0]
open('/verif/DESIGN.md', 'w').write(d + '\n'.join(out) + '\n')
print(len(rows), short)
