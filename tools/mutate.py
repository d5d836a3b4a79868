#!/usr/bin/env python3
"""Run seeded wrong programs against the theorems.

usage: mutate.py MUTANTS.json RESULTS.jsonl [id ...]

A mutant edits one definition of the model in a scratch copy.  Every proof that no longer checks is
replaced by Admitted there, and Print Assumptions then tells which theorems of the claims that the
edit breaks rest on a proof that broke (the theorems of other claims are listed when their own
proof broke).
"""
import json, os, re, subprocess, sys, shutil, time
BASE = os.environ.get('MUTBASE', '/tmp/mut/base'); W = os.environ.get('MUTW', '/tmp/mut/w'); LIMIT = '500'
def sh(c, **k): return subprocess.run(c, shell=True, text=True, stdout=subprocess.PIPE, stderr=subprocess.STDOUT, **k).stdout
HEAD = re.compile(r'^\s*(?:Local |Global )?(?:#\[[^\]]*\]\s*)?(Lemma|Theorem|Corollary|Example|Fact|Remark|Instance|Definition|Program Definition)\s+([\w\']+)', re.M)
def admit(path, off):
    s = open(path, encoding='latin-1').read()
    heads = [m for m in HEAD.finditer(s) if m.start() <= off]
    if not heads: return None
    m = heads[-1]
    p = re.compile(r'\bProof\b[^.]*\.|\bProof\.').search(s, m.end())
    if not p or p.start() > off: return (m.group(2), False)
    q = re.compile(r'\b(Qed|Defined)\.').search(s, p.end())
    if not q or q.end() < off: return (m.group(2), False)
    s = s[:p.start()] + 'Proof. Admitted.' + '\n' * s[p.start():q.end()].count('\n') + s[q.end():]
    open(path, 'w', encoding='latin-1').write(s)
    return (m.group(2), True)
def offset(path, line, col):
    s = open(path, encoding='latin-1').read().split('\n')
    return sum(len(x) + 1 for x in s[:line - 1]) + col
def theorems():
    out = []
    for f in sorted(os.listdir(W + '/theories')):
        if f.startswith('P_') and f.endswith('.v'):
            for m in re.finditer(r'^(?:Theorem|Corollary)\s+(C\d+_\w+)', open(W + '/theories/' + f, encoding='latin-1').read(), re.M):
                out.append((f[:-2], m.group(1)))
    return out
def run(mu):
    t0 = time.time()
    sh(f'rm -rf {W} && cp -a {BASE} {W}')
    path = f"{W}/theories/{mu['file']}"
    s = open(path, encoding='latin-1').read()
    if s.count(mu['old']) != 1: return {'id': mu['id'], 'error': f"old text occurs {s.count(mu['old'])} times"}
    open(path, 'w', encoding='latin-1').write(s.replace(mu['old'], mu['new']))
    broken, stuck = [], None
    for rnd in range(60):
        o = sh(f"cd {W} && ulimit -v 7000000 && make -k -j2 COQC='timeout {LIMIT} coqc' 2>&1")
        errs = re.findall(r'File "\./theories/(\w+)\.v", line (\d+), characters (\d+)-(\d+):\n(?:.*\n)*?Error', o)
        todo = {}
        for f, l, c, _ in errs: todo.setdefault(f, (int(l), int(c)))
        failed = set(re.findall(r'theories/(\w+)\.vo\] Error', o))
        if not failed: break
        for f in failed:
            p = f'{W}/theories/{f}.v'
            if f in todo: off = offset(p, *todo[f])
            else:
                t = sh(f'cd {W} && ulimit -v 7000000 && timeout {LIMIT} coqc -time -Q theories Verif theories/{f}.v')
                c = re.findall(r'^Chars (\d+) - (\d+)', t, re.M)
                off = int(c[-1][1]) + 2 if c else 0
            r = admit(p, off)
            if r is None or not r[1]: stuck = f'{f}: {r}'; break
            broken.append(f'{f}.{r[0]}')
        if stuck: break
    res = {'id': mu['id'], 'broken_proofs': broken}
    if stuck:
        res['stuck'] = stuck; res['tail'] = o[-1500:]
    else:
        every = theorems()
        names = {b.split('.')[1] for b in broken}
        ths = [(f, n) for f, n in every if n.split('_')[0] in mu['breaks'] and n not in names] or every[:1]
        q = 'From Verif Require ' + ' '.join(sorted({f for f, _ in ths})) + '.\n' + ''.join(f'Goal True. idtac "@@ {n}". Abort.\nPrint Assumptions Verif.{f}.{n}.\n' for f, n in ths)
        open(f'{W}/q.v', 'w').write(q)
        o = sh(f'cd {W} && coqc -Q theories Verif q.v')
        parts = o.split('@@ ')[1:]
        res['failed'] = [n for _, n in every if n in names] + [p.split('\n')[0].strip() for p in parts if 'Closed under' not in p]
        if len(parts) != len(ths): res['error'] = 'assumptions: ' + o[-500:]
        got = {n.split('_')[0] for n in res['failed']}
        res['survived'] = [c for c in mu['breaks'] if c not in got]
    res['seconds'] = round(time.time() - t0)
    return res
if __name__ == '__main__':
    mus = json.load(open(sys.argv[1])); want = set(sys.argv[3:])
    done = set()
    if os.path.exists(sys.argv[2]): done = {json.loads(l)['id'] for l in open(sys.argv[2])}
    for mu in mus:
        if (want and mu['id'] not in want) or (not want and mu['id'] in done): continue
        r = run(mu)
        open(sys.argv[2], 'a').write(json.dumps(r) + '\n')
        print(r['id'], r.get('survived'), r.get('stuck'), r.get('error'), len(r.get('broken_proofs', [])), r.get('seconds'), flush=True)
