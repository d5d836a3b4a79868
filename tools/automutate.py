#!/usr/bin/env python3
"""Small random edits of the model's definitions, to find definitions no proof depends on.

usage: automutate.py gen OUT.json SEED COUNT      choose edits
       automutate.py run MUTANTS.json RESULTS.jsonl PART OF
An edit is killed by the first lemma or theorem (not an Example) whose proof no longer checks.
"""
import json, os, random, re, sys, time
sys.path.insert(0, os.path.dirname(__file__))
MODEL = '''Base BitOps Frame Part PartList Frames Packet Config Writer Reader BigEndian Encode Print Fasm Absl DbText DbJson Database
Assembler FasmLog AsmLog MainLog Device Clock Opens Tidy TidyPool TidyCmd TidyOut Maps Arch LoadLog'''.split()
MODEL = os.environ.get('MODEL', '').split() or MODEL
TH = os.path.join(os.path.dirname(os.path.dirname(os.path.abspath(__file__))), 'rocq/theories')
DEF = re.compile(r'^\s*(?:Definition|Fixpoint|with)\s+([\w\']+)', re.M)
def blank(s):
    """comments and strings blanked out, same length"""
    out = list(s); i = 0; depth = 0; q = False
    while i < len(s):
        if not q and s.startswith('(*', i): depth += 1; out[i] = out[i + 1] = ' '; i += 2; continue
        if depth and s.startswith('*)', i): depth -= 1; out[i] = out[i + 1] = ' '; i += 2; continue
        if depth:
            if out[i] != '\n': out[i] = ' '
        elif s[i] == '"':
            q = not q; out[i] = '"'
        elif q and out[i] != '\n': out[i] = ' '
        i += 1
    return ''.join(out)
def sites(s):
    b = blank(s); heads = list(DEF.finditer(b)); stops = [m.start() for m in re.finditer(r'^\s*(?:Definition|Fixpoint|Lemma|Theorem|Example|Record|Inductive|Section|End|Context|Notation|Ltac|Local|Global|Arguments|From|Require)\b', b, re.M)] + [len(b)]
    for h in heads:
        e = min(x for x in stops if x > h.start())
        c = b.find(':=', h.end(), e)
        if c < 0: continue
        if re.search(r'\bProp\b', b[h.start():c]): continue
        body = b[c + 2:e]; o = c + 2
        def sub(rx, f):
            for m in re.finditer(rx, body):
                new = f(m)
                if new is not None: yield (h.group(1), o + m.start(), o + m.end(), new)
        yield from sub(r'<\?', lambda m: '<=?')
        yield from sub(r'<=\?', lambda m: '<?')
        yield from sub(r'(?<![<])=\?', lambda m: '<=?')
        yield from sub(r'(?<![\w\'.])(0x[0-9A-Fa-f]+|\d+)(?![\w\'])', lambda m: str(int(m.group(1), 0) + 1))
        yield from sub(r'\btrue\b', lambda m: 'false')
        yield from sub(r'\bfalse\b', lambda m: 'true')
        yield from sub(r'&&', lambda m: '||')
        yield from sub(r'\|\|', lambda m: '&&')
        yield from sub(r'\bnegb\b', lambda m: 'id')
        yield from sub(r'(?<= )\+(?= )', lambda m: '-')
        yield from sub(r'(?<= )-(?= )', lambda m: '+')
        yield from sub(r'\bErr\b(?! *=>)(?! *\|)', lambda m: 'Crash')
        yield from sub(r'\bCrash\b(?! *=>)(?! *\|)', lambda m: 'Err')
        yield from sub(r'\bUB\b(?! *=>)(?! *\|)', lambda m: 'Crash')
        yield from sub(r'\bif ([^;\n]*?) then\b', lambda m: None if ' if ' in m.group(1) else 'if negb (%s) then' % s[o + m.start(1):o + m.end(1)])
        yield from sub(r'"( +)"', lambda m: '"' + s[o + m.start(1):o + m.end(1) - 1] + ('~' if s[o + m.end(1) - 1] != '~' else '!') + '"')
        yield from sub(r'\bfst\b', lambda m: 'snd')
        yield from sub(r'\bskipn\b', lambda m: 'firstn')
        yield from sub(r' \+\+ \[', lambda m: ' ++ rev [')
def gen(out, seed, count):
    rnd = random.Random(int(seed)); by = {}
    for f in MODEL:
        s = open(f'{TH}/{f}.v', encoding='latin-1').read()
        for d, a, z, new in sites(s): by.setdefault((f, d), []).append((a, z, s[a:z], new))
    print(len(by), 'definitions', sum(map(len, by.values())), 'sites')
    keys = list(by); mus = []; rnd.shuffle(keys)
    while len(mus) < int(count) and any(by.values()):
        for k in keys:
            if by[k] and len(mus) < int(count):
                a, z, old, new = by[k].pop(rnd.randrange(len(by[k])))
                mus.append({'id': f'r{seed}_{len(mus):03}', 'file': k[0] + '.v', 'definition': k[1], 'at': a, 'to': z, 'old': old, 'new': new})
    json.dump(mus, open(out, 'w'), indent=0)
def run(mus, out, part, of):
    os.environ['MUTW'] = f'/tmp/mut/auto{part}x{of}'
    import mutate as M
    done = {json.loads(l)['id'] for l in open(out)} if os.path.exists(out) else set()
    for i, mu in enumerate(json.load(open(mus))):
        if i % int(of) != int(part) or mu['id'] in done: continue
        t0 = time.time(); W = M.W
        M.sh(f'rm -rf {W} && cp -a {M.BASE} {W}')
        path = f"{W}/theories/{mu['file']}"; s = open(path, encoding='latin-1').read()
        if s[mu['at']:mu['to']] != mu['old']: res = {'error': 'base differs'}
        else:
            open(path, 'w', encoding='latin-1').write(s[:mu['at']] + mu['new'] + s[mu['to']:])
            ex, res = [], None
            for _ in range(40):
                o = M.sh(f"cd {W} && ulimit -v 7000000 && make -j1 COQC='timeout 500 coqc' 2>&1")
                failed = re.findall(r'theories/(\w+)\.vo\] Error', o)
                if not failed: res = {'survived': True}; break
                e = re.search(r'File "\./theories/(\w+)\.v", line (\d+), characters (\d+)-(\d+):\n(?:.*\n)*?Error', o)
                if not e: res = {'killed': f'{failed[0]}: timeout'}; break
                p = f'{W}/theories/{e[1]}.v'; off = M.offset(p, int(e[2]), int(e[3]))
                src = open(p, encoding='latin-1').read()
                h = [m for m in M.HEAD.finditer(src) if m.start() <= off]
                if e[1] + '.v' == mu['file'] and not (h and re.search(r'\bProof\b', src[h[-1].start():off])): res = {'stillborn': o[-300:]}; break
                if h and h[-1][1] == 'Example' and M.admit(p, off)[1]: ex.append(f'{e[1]}.{h[-1][2]}'); continue
                res = {'killed': f'{e[1]}.{h[-1][2] if h else "?"}'}; break
            res['examples'] = ex
        res['id'] = mu['id']; res['seconds'] = round(time.time() - t0)
        open(out, 'a').write(json.dumps(res) + '\n')
        print(mu['id'], mu['file'], mu['definition'], mu['old'], '->', mu['new'], {k: v for k, v in res.items() if k != 'stillborn'}, flush=True)
if __name__ == '__main__':
    (gen if sys.argv[1] == 'gen' else run)(*sys.argv[2:])
