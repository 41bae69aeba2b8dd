#!/usr/bin/env python3
"""Regenerates MANIFEST.json from the theorem names in rocq/theories/Props_*.v
and the statuses/notes in tools/notes.json ({"C01": ["proved", "note"], ...})."""
import json, re, glob, os
root = os.path.dirname(os.path.dirname(os.path.abspath(__file__)))
notes = json.load(open(root + '/tools/notes.json'))
thms = {}
for f in sorted(glob.glob(root + '/rocq/theories/Props_*.v')):
    mod = os.path.basename(f)[:-2]
    for m in re.finditer(r'^Theorem (C(\d\d+)_\w+)', open(f).read(), re.M):
        thms.setdefault('C' + m.group(2), []).append(m.group(1))
claims = []
for line in open(root + '/properties.jsonl'):
    p = json.loads(line)['id']
    st, note = notes.get(p, [None, ''])
    if p in thms:
        if st is None:
            st = 'partial' if any(t.endswith(('_partial', '_refuted')) for t in thms[p]) else 'proved'
        claims.append({"property": p, "status": st, "theorems": thms[p], "note": note})
    elif st == 'not_applicable':
        claims.append({"property": p, "status": st, "theorems": [], "note": note})
json.dump({"claims": claims}, open(root + '/MANIFEST.json', 'w'), indent=1)
print(len(claims), 'claims;', sum(len(c['theorems']) for c in claims), 'theorems')
for p in sorted(set(thms) - {c['property'] for c in claims}): print('no property for', p)
