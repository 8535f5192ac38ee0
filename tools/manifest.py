#!/usr/bin/env python3
"""Writes MANIFEST.json from the table below and checks that every named theorem exists."""
import json, re, glob, os, sys
root = os.path.dirname(os.path.dirname(os.path.abspath(__file__)))
exec(open(os.path.join(root, 'tools', 'claims.py')).read())
names = set()
for f in glob.glob(root + '/rocq/theories/*.v'):
    names |= set(re.findall(r'^\s*(?:Theorem|Lemma|Corollary)\s+(\w+)', open(f).read(), re.M))
bad = [t for c in CLAIMS for t in c[2] if t not in names]
if bad: sys.exit('unknown theorems: %s' % bad)
json.dump({"claims": [dict(property=a, status=b, theorems=c, note=d) for a, b, c, d in CLAIMS]},
          open(root + '/MANIFEST.json', 'w'), indent=1)
