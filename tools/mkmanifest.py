#!/usr/bin/env python3
"""Regenerate MANIFEST.json: theorem names are collected from theories/*Properties.v by
their CNN_ prefix; status and note come from tools/status.json."""
import re, json, glob, os
root = os.path.join(os.path.dirname(os.path.abspath(__file__)), '..')
st = json.load(open(os.path.join(root, 'tools', 'status.json')))
th = {}
for f in sorted(glob.glob(os.path.join(root, 'rocq', 'theories', '*Properties.v'))):
    for n in re.findall(r'^Theorem (C\d+_\w*)', open(f).read(), re.M):
        th.setdefault(n.split('_')[0], []).append(n)
props = [json.loads(l)['id'] for l in open(os.path.join(root, 'properties.jsonl'))]
claims = []
for p in props:
    if p in st:
        claims.append({'property': p, 'status': st[p][0], 'theorems': th.get(p, []), 'note': st[p][1]})
        if st[p][0] != 'not_applicable' and not th.get(p):
            print('no theorems for', p)
    elif p in th:
        print('no status for', p)
json.dump({'claims': claims}, open(os.path.join(root, 'MANIFEST.json'), 'w'), indent=1)
print(len(claims), 'of', len(props), 'properties claimed,', sum(len(c['theorems']) for c in claims), 'theorems')
