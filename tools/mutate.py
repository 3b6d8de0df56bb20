#!/usr/bin/env python3
"""Mutation runner (scratch only; never touches /verif/rocq).
  mutate.py auto FILE...      : generate token mutants of the definitions of model files, run them
  mutate.py one SPEC.json     : run hand-written mutants [{file, definition, old, new, claim}]
Results are appended to /tmp/mut/results.jsonl."""
import sys, re, os, json, subprocess, shutil, random, time
SRC = os.environ.get('MUTSRC', '/verif/rocq'); W = os.environ.get('MUTDIR', '/tmp/mut/w'); OUT = os.environ.get('MUTOUT', '/tmp/mut/results.jsonl')

def mask(s):
    """blank out comments and strings, same length"""
    out = list(s); depth = 0; i = 0; instr = False
    while i < len(s):
        if not instr and s.startswith('(*', i): depth += 1; out[i] = out[i+1] = ' '; i += 2; continue
        if not instr and depth and s.startswith('*)', i): depth -= 1; out[i] = out[i+1] = ' '; i += 2; continue
        if depth:
            if s[i] != '\n': out[i] = ' '
        elif s[i] == '"': instr = not instr
        elif instr: out[i] = '_'
        i += 1
    return ''.join(out)

OPS = [(r'Qle_bool', ['Qlt_bool']), (r'Qlt_bool', ['Qle_bool']), (r'<=\?', ['<?']), (r'<\?', ['<=?']),
       (r'(?<=[\w)\]]) \+ (?=[\w(\-])', [' - ']), (r'(?<=[\w)\]]) - (?=[\w(])', [' + ']), (r'(?<=[\w)]) \* (?=[\w(])', [' + ']),
       (r'\btrue\b', ['false']), (r'\bfalse\b', ['true']), (r'\bqmin\b', ['qmax']), (r'\bqmax\b', ['qmin']),
       (r'\bRmin\b', ['Rmax']), (r'\bRmax\b', ['Rmin']), (r'\bnegb ', ['id ']), (r'&&', ['||']), (r'\|\|', ['&&']),
       (r'(?<![\w.#])0(?![\w#])', ['1']), (r'(?<![\w.#])1(?![\w#.])', ['0', '2']), (r'\bStart\b', ['End']), (r'\bEnd\b', ['Start']),
       (r'(?<=[\w)]) \+\+ (?=[\w(\[])', None), (r'\bSome\b', None), (r'\bKeyError\b', ['ValueError']),
       (r'\bOk \(?(\w+) - (\w+)', None), (r'\bif\b', ['if negb @'])]
def defs(s):
    m = mask(s)
    for d in re.finditer(r'^[ \t]*(?:#\[.*?\]\s*)?(Definition|Fixpoint)\s+([\w\']+)', m, re.M):
        e = re.search(r'\.(?=\s|$)', m[d.end():])
        if not e: continue
        a, b = d.start(), d.end() + e.end()
        body = m.find(':=', d.end(), b)
        if body < 0: continue
        yield d.group(2), body, b, m
def gen(f, per=4, seed=1):
    s = open(f'{SRC}/theories/{f}.v').read(); rnd = random.Random(seed); res = []
    for name, a, b, m in defs(s):
        c = []
        for pat, reps in OPS:
            if not reps: continue
            for x in re.finditer(pat, m[a:b]):
                for r in reps:
                    i, j = a + x.start(), a + x.end()
                    if r == 'if negb @':
                        t = m.find(' then', j)
                        # matching then: skip nested ifs
                        dpt, k = 1, j
                        for y in re.finditer(r'\bif\b|\bthen\b', m[j:b]):
                            dpt += 1 if y.group() == 'if' else -1
                            if dpt == 0: t = j + y.start(); break
                        if dpt: continue
                        c.append((i, t, 'if negb (' + s[j:t].strip() + ') ')); continue
                    c.append((i, j, r))
        rnd.shuffle(c)
        for i, j, r in c[:per]:
            ctx = s[max(a, i - 25):min(b, j + 25)].replace('\n', ' ')
            res.append(dict(file=f, definition=name, edit=f'{s[i:j].strip()} -> {r.strip()} in "{ctx.strip()}"', text=s[:i] + r + s[j:]))
    return res
def run(mu):
    if os.path.exists(W): shutil.rmtree(W)
    shutil.copytree(SRC, W, copy_function=shutil.copy2)
    p = f'{W}/theories/{mu["file"]}.v'; open(p, 'w').write(mu['text'])
    t = time.time()
    o = subprocess.run('timeout 900 make -k -j%s 2>&1' % os.environ.get('J', '4'), shell=True, cwd=W, capture_output=True, text=True).stdout
    fails = []; bad = None
    for m in re.finditer(r'File "\./theories/(\w+)\.v", line (\d+), characters.*?\n(Error[^\n]*)', o):
        f, l = m.group(1), int(m.group(2))
        if f == mu['file'] and f.endswith('Model'): bad = m.group(3)
        src = open(f'{W}/theories/{f}.v').read().split('\n')[:l]
        n = '?'
        for line in reversed(src):
            k = re.match(r'\s*(Theorem|Lemma|Example|Corollary|Definition|Fixpoint|Remark|Fact)\s+([\w\']+)', line)
            if k: n = k.group(2); break
        fails.append(f'{f}.{n}')
    r = {k: v for k, v in mu.items() if k != 'text'}
    r.update(fails=fails, status='invalid' if bad else ('killed' if fails else (('timeout' if time.time() - t > 895 else 'survived') if 'Error' not in o else 'other')), sec=round(time.time() - t))
    open(OUT, 'a').write(json.dumps(r) + '\n'); return r
if __name__ == '__main__':
    if sys.argv[1] == 'auto':
        for f in sys.argv[2:]:
            for mu in gen(f, int(os.environ.get('PER', '3'))):
                r = run(mu); print(r['status'], r['file'], r['definition'], r['edit'][:90], r['fails'][:3], r['sec'], flush=True)
    elif sys.argv[1] == 'rerun':   # re-run the survivors recorded in a results file against the present theorems
        want = {}
        for l in open(sys.argv[2]):
            x = json.loads(l)
            if x['status'] == 'survived' and 'KeyError' not in x['edit']: want.setdefault(x['file'], set()).add((x['definition'], x['edit']))
        for f in want:
            for mu in gen(f, 10 ** 6):
                if (mu['definition'], mu['edit']) in want[f]:
                    want[f].discard((mu['definition'], mu['edit']))
                    r = run(mu); print(r['status'], r['file'], r['definition'], r['edit'][:90], r['fails'][:3], r['sec'], flush=True)
            for z in want[f]: print('NOT FOUND', f, z)
    elif sys.argv[1] == 'count':
        for f in sys.argv[2:]: print(f, len(gen(f, int(os.environ.get('PER', '3')))))
    else:
        for x in json.load(open(sys.argv[2])):
            s = open(f'{SRC}/theories/{x["file"]}.v').read()
            n = s.count(x['old'])
            if n != 1: print('BAD old count', n, x['definition'], x['old'][:60]); continue
            x = dict(x, edit=x['old'] + '  ==>  ' + x['new'], text=s.replace(x['old'], x['new']))
            r = run(x); print(r['status'], r['file'], r['definition'], x['claim'][:60], r['fails'][:4], r['sec'], flush=True)
