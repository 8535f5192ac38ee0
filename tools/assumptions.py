#!/usr/bin/env python3
"""Prints, for the theorems of MANIFEST.json, the axioms that Print Assumptions lists (needs a finished build)."""
import json, os, re, glob, subprocess, tempfile
root = os.path.dirname(os.path.dirname(os.path.abspath(__file__)))
where = {}
for f in glob.glob(root + '/rocq/theories/*.v'):
    for n in re.findall(r'^\s*(?:Theorem|Lemma|Corollary)\s+(\w+)', open(f).read(), re.M): where.setdefault(n, os.path.basename(f)[:-2])
names = [(c['property'], t) for c in json.load(open(root + '/MANIFEST.json'))['claims'] for t in c['theorems']]
mods = sorted({where[t] for _, t in names})
src = ''.join('Require Verif.%s.\n' % m for m in mods) + ''.join('Goal True. idtac "@@ %s". Abort.\nPrint Assumptions Verif.%s.%s.\n' % (t, where[t], t) for _, t in names)
d = tempfile.mkdtemp()
open(d + '/a.v', 'w').write(src)
out = subprocess.run(['coqc', '-Q', root + '/rocq/theories', 'Verif', d + '/a.v'], capture_output=True, text=True)
res, cur = {}, None
for line in (out.stdout + out.stderr).split('\n'):
    if line.startswith('@@ '): cur = line[3:]; res[cur] = []
    elif cur and re.match(r'^[A-Za-z_][\w.]*( :|$)', line) and not line.startswith(('Closed', 'Axioms')): res[cur].append(line.split()[0])
groups = {}
for p, t in names: groups.setdefault(tuple(sorted(set(res[t]))), []).append((p, t))
for ax, ts in sorted(groups.items()):
    print('* %s:' % (', '.join('`%s`' % a for a in ax) if ax else 'Closed under the global context'))
    print('  ' + ', '.join('%s' % t for p, t in ts))
