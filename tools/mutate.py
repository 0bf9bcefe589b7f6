#!/usr/bin/env python3
"""Test the theorems against wrong programs.

usage: mutate.py MUTANTS.json OUT.jsonl [only-id ...]

MUTANTS.json: list of {id, file, old, new, definition, edit, breaks, claims}.
Each mutant is applied to a scratch copy of rocq/; the files downstream of the edit are
recompiled in order. When a proof fails, it is replaced by Admitted in the scratch copy, and
compilation goes on, so that every lemma whose proof breaks is listed. At the end, Print
Assumptions tells which of the property theorems (Theorem Cnn_...) rest on a broken proof or are
broken themselves."""
import json, os, re, subprocess, sys, shutil, time
BASE = '/tmp/mut/base'
START = re.compile(r'^\s*(?:Local |Global |#\[[^\]]*\]\s*)*(Lemma|Theorem|Example|Corollary|Fact|Instance|Remark)\s+([A-Za-z0-9_\']+)', re.M)
def order():
    return [l.strip() for l in open(f'{BASE}/_CoqProject') if l.strip().endswith('.v')]
def deps():
    d = {}
    for l in open('/tmp/mut/deps'):
        m = re.match(r'(\S+\.vo)\b.*?:\s*(.*)', l)
        if not m or not m.group(1).endswith('.vo'): continue
        d[m.group(1)[:-1]] = [x[:-1] for x in m.group(2).split() if x.endswith('.vo')]
    return d
def affected(f, d, ords):
    aff = {f}
    for g in ords:
        if any(x in aff for x in d.get(g, [])): aff.add(g)
    return aff
def needed(targets, d):
    seen = set(); st = list(targets)
    while st:
        x = st.pop()
        if x in seen: continue
        seen.add(x); st += d.get(x, [])
    return seen
def compile1(w, f, to):
    try:
        p = subprocess.run(['coqc', '-time', '-Q', 'theories', 'Verif', f], cwd=w, capture_output=True, text=True, timeout=to)
        out, err, rc = p.stdout, p.stderr, p.returncode
    except subprocess.TimeoutExpired as e:
        out = (e.stdout or b'').decode(errors='replace'); err = 'TIMEOUT'; rc = 124
    pos = None
    m = re.search(r'File "[^"]*", line (\d+), characters (\d+)', err)
    if rc == 0: return True, None, ''
    if 'TIMEOUT' == err:
        cs = re.findall(r'^Chars (\d+) - (\d+)', out, re.M)
        pos = ('c', int(cs[-1][1]) + 1 if cs else 0)
    else:
        ms = [x for x in re.finditer(r'File "[^"]*", line (\d+), characters (\d+)[^\n]*\n(Error)', err)]
        m = ms[-1] if ms else m
        if m: pos = ('l', int(m.group(1)))
    return False, pos, err[-600:]
def run(mu, d, ords, outf):
    w = f"/tmp/mut/{mu['id']}"
    shutil.rmtree(w, ignore_errors=True); shutil.copytree(BASE, w)
    f = 'theories/' + mu['file']; p = f'{w}/{f}'
    s = open(p).read()
    if s.count(mu['old']) != 1:
        print(mu['id'], 'BAD PATTERN', s.count(mu['old'])); return
    open(p, 'w').write(s.replace(mu['old'], mu['new']))
    targets = ['theories/' + t for t in mu['targets']]
    todo = [g for g in ords if g in affected(f, d, ords) and g in needed(targets, d)]
    broken, dead, t0 = [], None, time.time()
    for g in todo:
        for _ in range(60):
            ok, pos, err = compile1(w, g, 400)
            if ok: break
            src = open(f'{w}/{g}').read()
            src_b = src.encode()
            off = None
            if pos and pos[0] == 'c': off = len(src_b[:pos[1]].decode(errors='ignore'))
            elif pos: off = sum(len(x) + 1 for x in src.split('\n')[:pos[1]-1]) + 1
            cands = [m for m in START.finditer(src) if off is not None and m.start() <= off]
            if not cands: dead = (g, err); break
            m = cands[-1]
            pr = src.find('Proof', m.end())
            qe = re.compile(r'\b(Qed|Defined|Admitted)\.').search(src, m.end())
            if pr < 0 or not qe or qe.start() < off - 3 and False: dead = (g, err); break
            if qe.end() < off - 1: dead = (g, m.group(2) + ' after: ' + err); break
            if src[qe.start():qe.end()] == 'Admitted.': dead = (g, 'statement of ' + m.group(2) + ': ' + err); break
            head = re.compile(r'Proof[^.]*\.').match(src, pr)
            if not head or pr > qe.start(): dead = (g, err); break
            if off < pr - 1: dead = (g, 'statement of ' + m.group(2) + ': ' + err); break
            broken.append((g[9:-2], m.group(2)))
            open(f'{w}/{g}', 'w').write(src[:head.end()] + ' Admitted.' + src[qe.end():])
        else: dead = (g, 'too many')
        if dead: break
    # which property theorems rest on a broken proof
    resting, standing = [], []
    for t in targets:
        src = open(f'{w}/{t}').read()
        names = [m.group(2) for m in START.finditer(src) if m.group(1) == 'Theorem' and re.match(r'C\d\d_', m.group(2))]
        if dead and (todo.index(dead[0]) <= todo.index(t) if t in todo else False):
            resting += [n for n in names]; continue
        if t not in todo: standing += names; continue
        mod = t[9:-2]
        q = f'From Verif Require Import {mod}.\n' + ''.join(f'Print Assumptions {n}.\n' for n in names)
        open(f'{w}/q.v', 'w').write(q)
        r = subprocess.run(['coqc', '-Q', 'theories', 'Verif', 'q.v'], cwd=w, capture_output=True, text=True)
        # one answer per theorem
        ans = re.split(r'(?=^Closed under|^Axioms:)', r.stdout, flags=re.M)
        ans = [a for a in ans if a.strip()]
        for n, a in zip(names, ans):
            (standing if a.startswith('Closed') else resting).append(n)
    res = dict(id=mu['id'], definition=mu['definition'], edit=mu['edit'], breaks=mu['breaks'],
               broken=[f'{a}.{b}' for a, b in broken], dead=dead, failed=resting, standing_in_targets=standing, secs=round(time.time()-t0))
    open(outf, 'a').write(json.dumps(res) + '\n')
    print(mu['id'], 'broken', len(broken), 'failed', len(resting), 'dead', dead and dead[0], res['secs'], 's', flush=True)
    shutil.rmtree(w, ignore_errors=True)
if __name__ == '__main__':
    d, ords = deps(), order()
    ms = json.load(open(sys.argv[1])); only = sys.argv[3:]
    done = set()
    if os.path.exists(sys.argv[2]): done = {json.loads(l)['id'] for l in open(sys.argv[2])}
    for mu in ms:
        if (only and mu['id'] not in only) or mu['id'] in done: continue
        run(mu, d, ords, sys.argv[2])
