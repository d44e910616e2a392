#!/usr/bin/env python3
"""Write MANIFEST.json from tools/claims.txt.

Every claim is a line `ID status theorem ...` followed by an indented note.
Theorem names are checked against rocq/theories/P_*.v.
"""
import json, os, re, glob, sys
here = os.path.dirname(os.path.abspath(__file__))
names = set()
for f in glob.glob(os.path.join(here, '..', 'rocq', 'theories', 'P_*.v')):
    names |= set(re.findall(r'^Theorem (\w+)', open(f).read(), re.M))
props = [json.loads(l)['id'] for l in open(os.path.join(here, '..', 'properties.jsonl'))]
claims, used = [], set()
for line in open(os.path.join(here, 'claims.txt')):
    if not line.strip() or line.startswith('#'):
        continue
    if line[0] != ' ':
        pid, status, *ths = line.split()
        assert pid in props, pid
        assert status in ('proved', 'partial', 'not_applicable'), line
        for t in ths:
            assert t in names, t
            used.add(t)
        claims.append({'property': pid, 'status': status, 'theorems': ths, 'note': ''})
    else:
        c = claims[-1]
        c['note'] = (c['note'] + ' ' + line.strip()).strip()
ids = [c['property'] for c in claims]
assert len(ids) == len(set(ids)), 'duplicate claim'
claims.sort(key=lambda c: props.index(c['property']))
with open(os.path.join(here, '..', 'MANIFEST.json'), 'w') as f:
    f.write('{"claims": [\n' + ',\n'.join('  ' + json.dumps(c) for c in claims) + '\n]}\n')
print('claims', len(claims), 'missing', [p for p in props if p not in ids], 'unused theorems', sorted(names - used))
