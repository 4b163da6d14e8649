#!/usr/bin/env python3
"""Writes MANIFEST.json.  The theorems of a property are found by their name prefix in rocq/theories/*Props.v."""
import json, re, glob, os
root = os.path.join(os.path.dirname(__file__), '..')
names = []
for f in sorted(glob.glob(os.path.join(root, 'rocq/theories/*Props.v'))):
    names += re.findall(r'^\s*(?:Theorem|Corollary)\s+(C\d\d\d?_\w+)', open(f).read(), re.M)
ids = [json.loads(l)['id'] for l in open(os.path.join(root, 'properties.jsonl'))]
status = json.load(open(os.path.join(root, 'tools/status.json')))
claims = []
for i in ids:
    th = [n for n in names if n.startswith(i + '_')]
    st = status.get(i, {})
    if not th and not st:
        continue
    s = st.get('status', 'proved')
    claims.append({"property": i, "status": s, "theorems": th, "note": st.get('note', '')})
json.dump({"claims": claims}, open(os.path.join(root, 'MANIFEST.json'), 'w'), indent=1)
print(len(claims), 'claims', sum(len(c['theorems']) for c in claims), 'theorems')
missing = [i for i in ids if i not in [c['property'] for c in claims]]
print('no claim:', missing)
