#!/usr/bin/env python3
"""Build seeded/LOG.jsonl from the raw mutation results.
  mklog.py RESULTS.jsonl RERUN.jsonl HAND.jsonl...   (verdicts on survivors: tools/verdicts.json)
For a killed mutant the raw result names the lemma whose proof script stopped.  When that lemma is a helper, the
property theorems whose proofs use it are found on the textual dependency graph of the sources; they are listed
under "theorems_resting_on_it" (they are not rebuilt, because the file they need no longer compiles)."""
import sys, re, os, json, glob, collections
os.chdir('/verif')
title = {}
for l in open('properties.jsonl'):
    x = json.loads(l); title[x['id']] = x['title']
decl = {}; files = {}; reqs = {}
pat = re.compile(r'^\s*(?:#\[.*?\]\s*)?(?:Local |Global )?(Theorem|Lemma|Example|Corollary|Definition|Fixpoint|Remark|Fact|Ltac|Record|Inductive|Let)\s+([\w\']+)', re.M)
for f in glob.glob('rocq/theories/*.v'):
    n = os.path.basename(f)[:-2]; s = open(f).read()
    ms = list(pat.finditer(s))
    for i, m in enumerate(ms):
        e = ms[i + 1].start() if i + 1 < len(ms) else len(s)
        decl[(n, m.group(2))] = set(re.findall(r"[A-Za-z_][\w']*", s[m.end():e]))
    reqs[n] = set(re.findall(r'\b([A-Z]\w+)\b', ' '.join(re.findall(r'Require (?:Import|Export)([^.]*)\.', s))))
def clos(n, seen=None):
    seen = seen if seen is not None else set()
    for r in reqs.get(n, ()):
        if r not in seen and r in reqs: seen.add(r); clos(r, seen)
    return seen
vis = {n: clos(n) | {n} for n in reqs}
byname = collections.defaultdict(list)
for k in decl: byname[k[1]].append(k)
users = collections.defaultdict(set)
for k, toks in decl.items():
    for t in toks:
        c = [d for d in byname.get(t, ()) if d[0] in vis[k[0]] and d != k]
        own = [d for d in c if d[0] == k[0]]
        for d in own or c: users[d].add(k)
def reach(start):
    dist = {start: 0}; q = collections.deque([start]); out = {}
    while q:
        u = q.popleft()
        if re.match(r'C\d\d', u[1]) and u[0].startswith('Prop_'): out[u[1]] = dist[u]
        for v in users[u]:
            if v not in dist: dist[v] = dist[u] + 1; q.append(v)
    return out
def ids(names): return sorted({re.match(r'C\d+', n).group() for n in names})
def isprop(f): return re.match(r'Prop_\w+\.C\d\d', f)
verd = json.load(open('tools/verdicts.json'))
def verdict(x):
    for v in verd:
        if v['file'] == x['file'] and v['definition'] == x['definition'] and v.get('match', '') in x['edit']: return v
    return None
out = []; n = collections.Counter()
def line(x, rer=None):
    d = dict(definition=x['file'] + '.' + x['definition'], edit=x['edit'])
    if x['status'] in ('invalid', 'other'): return None
    if x['status'] == 'survived':
        v = verdict(x)
        if 'KeyError' in x['edit'] and not v: v = dict(why='which exception a rejected call raises is not part of any claim; that the call is rejected is')
        if rer and rer['status'] == 'killed':
            d['claim_broken'] = '; '.join(f'{i}: {title[i]}' for i in ids([f.split('.')[1] for f in rer['fails'] if isprop(f)])) or (v or {}).get('claim', '')
            d['outcome'] = 'survived at first; the theorem was tightened or added, and the same edit now fails'
            d['theorems_failed'] = rer['fails']; d['theorems_tightened'] = [f.split('.')[1] for f in rer['fails'] if isprop(f)] or (v or {}).get('theorems', []); n['tightened'] += 1
        elif v:
            if v.get('theorems'):
                d['claim_broken'] = v.get('claim') or '; '.join(f'{i}: {title[i]}' for i in ids(v['theorems']))
                d['outcome'] = 'survived at first; the theorem was tightened or added'; d['theorems_failed'] = []; d['theorems_tightened'] = v['theorems']; n['tightened'] += 1
            else:
                d['claim_broken'] = 'none'; d['outcome'] = 'survived: ' + v['why']; d['theorems_failed'] = []; d['theorems_tightened'] = []; n['none'] += 1
        else:
            print('NO VERDICT', x['file'], x['definition'], x['edit']); n['open'] += 1; return None
        return d
    direct = [f for f in x['fails'] if isprop(f)]
    down = {}
    for f in x['fails']:
        a, b = f.split('.', 1)
        for t, k in reach((a, b)).items(): down[t] = min(k, down.get(t, 99))
    near = [t for t in down if not t.endswith('_sat') and down[t] <= min([k for tt, k in down.items() if not tt.endswith('_sat')] or [0]) + 1] if not direct else [f.split('.')[1] for f in direct]
    cl = x.get('claim')
    d['claim_broken'] = cl or '; '.join(f'{i}: {title[i]}' for i in ids(near)[:6]) 
    d['outcome'] = 'caught'; d['theorems_failed'] = x['fails']
    if not direct: d['theorems_resting_on_it'] = sorted(t for t in down if not t.endswith('_sat'))[:25]
    if not direct and not down: print('NO PROP', x['file'], x['definition'], x['fails'])
    d['theorems_tightened'] = []; n['caught'] += 1
    return d
res = [json.loads(l) for l in open(sys.argv[1])]
rer = {}
for l in open(sys.argv[2]):
    x = json.loads(l); rer[(x['file'], x['definition'], x['edit'])] = x
seen = set()
for x in res:
    k = (x['file'], x['definition'], x['edit'])
    if k in seen: continue
    seen.add(k); d = line(x, rer.get(k))
    if d: out.append(d)
for h in sys.argv[3:]:
    for l in open(h):
        x = json.loads(l); d = line(x)
        if d: out.append(d)
open('seeded/LOG.jsonl', 'w').write(''.join(json.dumps(d) + '\n' for d in out))
print(n, len(out))
