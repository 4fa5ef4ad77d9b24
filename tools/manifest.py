#!/usr/bin/env python3
"""Regenerate MANIFEST.json from the theorem names in rocq/theories/Props*.v
and the status notes in tools/notes.json."""
import json, re, glob, os, collections
root = os.path.dirname(os.path.dirname(os.path.abspath(__file__)))
thms = collections.defaultdict(list)
for f in sorted(glob.glob(root + '/rocq/theories/Props*.v')):
    for m in re.finditer(r'^Theorem\s+(C(\d+)_\w+)', open(f).read(), re.M):
        thms['C%02d' % int(m.group(2))].append(m.group(1))
notes = json.load(open(root + '/tools/notes.json'))
claims = []
for line in open(root + '/properties.jsonl'):
    p = json.loads(line)['id']
    n = notes.get(p, {})
    if not thms[p] and 'status' not in n:
        continue
    names = thms[p]
    st = n.get('status') or ('partial' if any(x.endswith('_partial') for x in names) else 'proved')
    claims.append({"property": p, "status": st, "theorems": names, "note": n.get('note', '')})
json.dump({"claims": claims}, open(root + '/MANIFEST.json', 'w'), indent=1)
print(len(claims), 'claims', sum(len(c['theorems']) for c in claims), 'theorems')
