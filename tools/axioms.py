#!/usr/bin/env python3
"""Writes the axiom table of DESIGN.md (between the AXIOMS markers) from Print Assumptions of every theorem in MANIFEST.json.
Needs an up-to-date build in rocq/."""
import json, re, subprocess, glob, os, collections
root = os.path.dirname(os.path.dirname(os.path.abspath(__file__)))
where = {}
for f in sorted(glob.glob(root + '/rocq/theories/Prop_*.v')):
    for m in re.finditer(r'^\s*Theorem\s+(C\d+_\w+)', open(f).read(), re.M):
        where[m.group(1)] = os.path.basename(f)[:-2]
M = [t for c in json.load(open(root + '/MANIFEST.json'))['claims'] for t in c['theorems']]
axs = {}
for f in sorted(set(where.values())):
    ts = [t for t in M if where[t] == f]
    src = f'From Verif Require Import {f}.\n' + ''.join(f'Goal True. idtac "@@{t}". Abort.\nPrint Assumptions {t}.\n' for t in ts)
    open('/tmp/ax_tmp.v', 'w').write(src)
    o = subprocess.run(['coqc', '-Q', root + '/rocq/theories', 'Verif', '/tmp/ax_tmp.v'], capture_output=True, text=True)
    parts = re.split(r'@@(C\d+_\w+)', o.stdout)
    for t, b in zip(parts[1::2], parts[2::2]):
        axs[t] = tuple(sorted(re.findall(r'^([A-Za-z_][\w.]*)\s*(?::|$)', b.split('Axioms:')[1], re.M))) if 'Axioms:' in b else ()
    if o.returncode: print(f, o.stderr[:300])
g = collections.defaultdict(list)
for t in M: g[axs.get(t, ('?',))].append(t)
out = []
for k in sorted(g, key=len):
    out.append(('* **Closed under the global context** (no axioms)' if not k else '* Axioms `' + '`, `'.join(k) + '`') + f' — {len(g[k])} theorems: ' + ', '.join(g[k]) + '.')
d = open(root + '/DESIGN.md').read()
d = re.sub(r'(<!-- AXIOMS -->\n).*?(<!-- /AXIOMS -->)', lambda m: m.group(1) + '\n'.join(out) + '\n' + m.group(2), d, flags=re.S)
open(root + '/DESIGN.md', 'w').write(d)
print({k: len(v) for k, v in g.items()})
