#!/usr/bin/env python3
"""Runs the Rocq model of MPDFromBytes and WriteXML on the test documents of /repo/mpd/testdata, and compares the
element trees before and after, as TestDecodeEncodeMPDs does.  A test of the model, not a proof.
Floats go through a table, because FormatFloat and ParseFloat are parameters of the model."""
import glob, re, subprocess, sys, os
import xml.etree.ElementTree as ET

TH = '/verif/rocq/theories'
OUT = '/tmp/val'

def go_g(x):
    s = repr(x)
    return s[:-2] if s.endswith('.0') else s

def coq_bytes(b):
    return '[' + ';'.join(str(c) for c in b) + ']%Z'

def tree(e):
    return (e.tag, sorted(e.attrib.items()), (e.text or '').strip(), sorted((tree(c) for c in e), key=repr))

os.makedirs(OUT, exist_ok=True)
files = sorted(glob.glob('/repo/mpd/testdata/*/*.mpd'))
if len(sys.argv) > 1:
    files = [f for f in files if sys.argv[1] in f]
v = ['From Coq Require Import String.', 'From Coq Require Import ZArith List Bool SpecFloat.',
     'From Verif Require Import Base Float64 Utf8 Lexer Escape Decoder Printer Writer GoType Schema TypeInfo Simple Marshal Unmarshal.',
     'Import ListNotations.', 'Open Scope Z_scope.', '']
for i, f in enumerate(files):
    b = open(f, 'rb').read()
    nums = sorted(set(re.findall(r'["\']\s*([0-9]*\.?[0-9]+(?:[eE][-+]?[0-9]+)?)\s*["\']', b.decode())))
    vals = sorted(set(float(n) for n in nums) - {0.0})
    pairs = ' ; '.join('(%s, %s)' % (coq_bytes(n.encode()), 'S754_zero false' if float(n) == 0 else 'S754_finite false %d 0' % (vals.index(float(n)) + 1)) for n in nums)
    outs = ' ; '.join(coq_bytes(go_g(x).encode()) for x in vals)
    v.append(f'''Definition F{i} : floats :=
  let fmt (f : f64) := match f with S754_zero _ => str "0" | S754_finite _ m _ => nth (Pos.to_nat m - 1) [{outs}] [] | _ => str "Inf" end in
  mkfl (fun _ f => fmt f) fmt (fun _ s => option_map snd (find (fun p => beq (fst p) s) [{pairs}])) (fun _ => 0).
Definition doc{i} : bytes := {coq_bytes(b)}.
Definition res{i} := match mpd_from_bytes F{i} mpd_types 10 doc{i} with
  | Ok g => let '(cs, _, r) := marshal_value F{i} mpd_types 10 50 true (TPtr (TStruct (str "MPD"))) (VPtr g) None None (mkp 0 (str "  ") [] 0 false false []) in
            match r with Ok _ => inl (concat cs) | _ => inr (str "marshal") end
  | Err _ => inr (str "unmarshal error") | Panic => inr (str "panic") | OutOfFuel => inr (str "fuel") end.
Eval vm_compute in ({i}%nat, res{i}).
''')
open(OUT + '/Docs.v', 'w').write('\n'.join(v))
p = subprocess.run(['coqc', '-Q', TH, 'Verif', OUT + '/Docs.v'], capture_output=True, text=True)
print(p.stderr[:2000])
ok = bad = 0
for m in re.finditer(r'=\s*\((\d+)%nat,\s*(inl|inr)\s*\[([^\]]*)\]', p.stdout):
    i, side, body = int(m[1]), m[2], bytes(int(x) for x in m[3].replace('\n', ' ').split(';') if x.strip())
    f = files[i]
    if side == 'inr':
        print(f, body.decode()); bad += not f.endswith('/invalid.mpd'); continue
    try:
        back = ET.fromstring(body)
    except ET.ParseError as x:
        print('NOT WELL-FORMED', f, x); open(OUT + '/%d.mpd' % i, 'wb').write(body); bad += 1; continue
    a, c = tree(ET.fromstring(open(f, 'rb').read())), tree(back)
    if a == c:
        ok += 1
    else:
        bad += 1
        print('DIFFERENT', f)
        open(OUT + '/%d.mpd' % i, 'wb').write(body)
        def diff(x, y, path):
            if x[:3] != y[:3]:
                print('  ', path, x[:3], y[:3]); return True
            if len(x[3]) != len(y[3]):
                print('  ', path, x[0], [q[0] for q in x[3]], [q[0] for q in y[3]]); return True
            return any(diff(p, q, path + '/' + p[0][-20:]) for p, q in zip(x[3], y[3]))
        diff(a, c, '')
print(ok, 'documents equal,', bad, 'different of', len(files))
