#!/usr/bin/env python3
"""Lists the Go functions of /repo with the Coq files whose comments cite lines of them."""
import re, glob, os, sys
root = os.path.dirname(os.path.dirname(os.path.abspath(__file__)))
files = [f for f in glob.glob('/repo/**/*.go', recursive=True) if not f.endswith('_test.go')]
base = {}
for f in files: base.setdefault(os.path.basename(f), []).append(f)
cites = {}
for v in sorted(glob.glob(root + '/rocq/theories/*.v')):
    t = open(v).read()
    for c in re.findall(r'\(\*.*?\*\)', t, re.S):
        cur = None
        for m in re.finditer(r'([\w/]+\.go)\b|(?<![\w.])(\d{1,4})(?:-(\d{1,4}))?(?![\w.])', c):
            if m.group(1): cur = os.path.basename(m.group(1))
            elif cur:
                a = int(m.group(2)); b = int(m.group(3) or a)
                for f in base.get(cur, []): cites.setdefault(f, []).append((a, b, os.path.basename(v)))
for f in sorted(files):
    lines = open(f).read().split('\n'); i = 0
    print(f[6:])
    while i < len(lines):
        if lines[i].startswith('func '):
            j = i
            while not (lines[j].startswith('}') or (j == i and lines[i].rstrip().endswith('}'))): j += 1
            vs = sorted({v for a, b, v in cites.get(f, []) if a <= j + 1 and b >= i + 1})
            n = re.match(r'func (\([^)]*\) )?(\w+)', lines[i])
            print('  %-5s %s%s: %s' % (i + 1, (n.group(1) or ''), n.group(2), ' '.join(vs) if vs else '---'))
            i = j
        i += 1
