#!/usr/bin/env python3
"""Regenerates MANIFEST.json from the theorems found in rocq/theories/P_*.v and the notes
in tools/notes.json."""
import json, re, glob, os
root = os.path.dirname(os.path.dirname(os.path.abspath(__file__)))
thms = {}
for f in sorted(glob.glob(root + '/rocq/theories/P_*.v')):
    for m in re.finditer(r'^(?:Theorem|Corollary) (C(\d\d\d?)_\w+)', open(f).read(), re.M):
        thms.setdefault('C' + m.group(2), []).append(m.group(1))
notes = json.load(open(root + '/tools/notes.json'))
props = [json.loads(l)['id'] for l in open(root + '/properties.jsonl') if l.strip()]
claims = []
for p in props:
    t = thms.get(p, [])
    n = notes.get(p, {})
    if n.get('status'):
        st = n['status']
    elif not t:
        st = 'partial'
    elif any(x.endswith('_partial') or x.endswith('_refuted') for x in t):
        st = 'partial'
    else:
        st = 'proved'
    note = n.get('note', '')
    if not t and not note:
        note = 'not modelled yet'
    claims.append({'property': p, 'status': st, 'theorems': t, 'note': note})
json.dump({'claims': claims}, open(root + '/MANIFEST.json', 'w'), indent=1)
print({s: sum(c['status'] == s for c in claims) for s in ('proved', 'partial', 'not_applicable')})
print('unknown', set(thms) - set(props), 'without theorem', [c['property'] for c in claims if not c['theorems']])
