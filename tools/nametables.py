#!/usr/bin/env python3
"""Copy the two name-character tables of /repo/xml/xml.go into rocq/theories/NameTables.v."""
import re
src = open('/repo/xml/xml.go').read().split('\n')
def table(name):
    start = next(i for i, l in enumerate(src) if l.startswith(f'var {name} = &unicode.RangeTable'))
    out = []
    i = start
    while src[i] != '}':
        m = re.match(r'\s*\{0x([0-9A-Fa-f]+), 0x([0-9A-Fa-f]+), (\d+)\},', src[i])
        if m:
            out.append((int(m[1], 16), int(m[2], 16), int(m[3])))
        i += 1
    return start + 1, i + 1, out
o = ["(** Generated by tools/nametables.py: the range tables of xml/xml.go, unchanged. *)",
     "From Coq Require Import ZArith List.", "Import ListNotations.", "Open Scope Z_scope.", ""]
for n in ('first', 'second'):
    a, b, t = table(n)
    o.append(f"(** xml/xml.go:{a}-{b} var {n}: (Lo, Hi, Stride) *)")
    o.append(f"Definition {n}_table : list (Z * Z * Z) :=")
    rows = [f"({x},{y},{z})" for x, y, z in t]
    o.append("  [" + ";\n   ".join("; ".join(rows[i:i+6]) for i in range(0, len(rows), 6)) + "].")
    o.append("")
open('/verif/rocq/theories/NameTables.v', 'w').write("\n".join(o))
print(len(table('first')[2]), len(table('second')[2]))
