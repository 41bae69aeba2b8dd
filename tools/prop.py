#!/usr/bin/env python3
"""prop.py updates.json: replaces or appends properties (by id) in properties.jsonl."""
import json, os, sys
root = os.path.dirname(os.path.dirname(os.path.abspath(__file__)))
props = [json.loads(l) for l in open(root + '/properties.jsonl')]
for u in json.load(open(sys.argv[1])):
    for i, p in enumerate(props):
        if p['id'] == u['id']:
            props[i] = {**p, **u}
            break
    else:
        props.append(u)
props.sort(key=lambda p: int(p['id'][1:]))
with open(root + '/properties.jsonl', 'w') as f:
    for p in props:
        f.write(json.dumps(p) + '\n')
