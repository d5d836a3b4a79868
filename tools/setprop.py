#!/usr/bin/env python3
"""setprop.py < updates.json : replaces fields of properties in properties.jsonl (adds new ids)."""
import json, sys, os
root = os.path.dirname(os.path.dirname(os.path.abspath(__file__)))
p = root + '/properties.jsonl'
props = [json.loads(l) for l in open(p) if l.strip()]
by = {d['id']: d for d in props}
for k, v in json.load(sys.stdin).items():
    if k not in by:
        by[k] = {'id': k}; props.append(by[k])
    by[k].update(v)
with open(p, 'w') as f:
    for d in sorted(props, key=lambda d: int(d['id'][1:])):
        f.write(json.dumps(d) + '\n')
