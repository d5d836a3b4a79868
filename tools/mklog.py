#!/usr/bin/env python3
"""Merge the seeded edits (seeded/mutants*.py) and the results of mutate.py into seeded/LOG.jsonl.
usage: mklog.py RESULTS.jsonl ..."""
import json, os, runpy, sys, glob
here = os.path.dirname(os.path.abspath(__file__)); seeded = here + '/../seeded'
M = {}
for f in sorted(glob.glob(seeded + '/mutants*.py')):
    for m in runpy.run_path(f)['M']: M[m[0]] = m
tight = json.load(open(seeded + '/tightened.json')) if os.path.exists(seeded + '/tightened.json') else {}
old = {}
p = seeded + '/LOG.jsonl'
if os.path.exists(p):
    for l in open(p):
        d = json.loads(l); old[d['id']] = d
for f in sys.argv[1:]:
    for l in open(f):
        r = json.loads(l)
        if r['id'] not in M or 'failed' not in r: 
            print('skipped', r['id'], r.get('error'), r.get('stuck')); continue
        i, file, defn, o, n, words, breaks = M[r['id']]
        t = tight.get(i, {})
        old[i] = {'id': i, 'definition': f'{file}: {defn}', 'edit': {'from': o, 'to': n, 'meaning': words}, 'claim_broken': breaks,
                  'theorems_failed': r['failed'], 'claims_surviving': r['survived'],
                  'theorems_tightened': t.get('theorems', []), 'note': t.get('note', '')}
for i, t in tight.items():
    if i in old: old[i]['theorems_tightened'] = t.get('theorems', []); old[i]['note'] = t.get('note', '')
with open(p, 'w') as g:
    for i in sorted(old): g.write(json.dumps(old[i]) + '\n')
bad = [i for i in old if old[i]['claims_surviving'] and not old[i]['theorems_tightened'] and not old[i]['note']]
print(len(old), 'entries; unexplained survivors:', bad)
