#!/usr/bin/env python3
"""Rebuild MANIFEST.json from tools/claims.txt and the theorem names found in rocq/theories/*_props.v.

claims.txt lines:  Cnn | status | note
Theorems of Cnn are those named Cnn_* in the *_props.v files."""
import json, re, glob, os
here = os.path.dirname(os.path.abspath(__file__))
root = os.path.dirname(here)
names = {}
for f in sorted(glob.glob(os.path.join(root, 'rocq/theories/*_props.v'))):
    for m in re.finditer(r'^(?:Theorem|Corollary)\s+((C\d+)_\w+)', open(f).read(), re.M):
        names.setdefault(m.group(2), []).append(m.group(1))
props = [json.loads(l)['id'] for l in open(os.path.join(root, 'properties.jsonl')) if l.strip()]
claims = []
seen = set()
for l in open(os.path.join(here, 'claims.txt')):
    if not l.strip() or l.startswith('#'):
        continue
    pid, status, note = [x.strip() for x in l.split('|', 2)]
    assert pid in props, pid
    seen.add(pid)
    ths = names.get(pid, [])
    assert status == 'not_applicable' or ths, pid
    claims.append(dict(property=pid, status=status, theorems=ths, note=note))
for pid in names:
    assert pid in seen, 'no claim line for ' + pid
claims.sort(key=lambda c: c['property'])
json.dump({'claims': claims}, open(os.path.join(root, 'MANIFEST.json'), 'w'), indent=1)
print(len(claims), 'claims; missing:', [p for p in props if p not in seen])
