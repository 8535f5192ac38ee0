#!/usr/bin/env python3
"""Tells for which test documents of /repo/mpd/testdata the value read is one that the round trip is proved for
(RoundTripSpec.clean, decided by RoundTripTest.cleanb), and what is in the way for the others.  A test that the
hypotheses are met in practice, not a proof.  Floats go through a table, as in validate_docs.py."""
import glob, re, subprocess, sys, os
import xml.etree.ElementTree as ET

WHY = r'''Section D. Variables (F : floats) (env : tenv).
Fixpoint why (i : bool) (d : option bytes) (l : bytes) (t : gtype) (v : gval) {struct v} : list (list bytes) :=
  match v with
  | VStr x => if textb x then [] else [[str "text"]]
  | VInt _ | VFloat _ => match t with TDuration | TFloat _ | TFloatInf => if keptb F t v then [] else [[str "kept"; match leaf_text F t v with Some s => s | None => [] end]] | _ => [] end
  | VPtr w => match w with VList [] => [[str "ptr"]] | _ => [] end ++ match t with TPtr t => why i d l t w | _ => [[str "type"]] end
  | VList ws => match t with TSlice t => flat_map (fun w => match w with VNil => [[str "nil"]] | _ => [] end ++ why i d l t w) ws | _ => [[str "type"]] end
  | VRec ws =>
      match t with
      | TStruct s =>
          let own := option_map space (own_name (fields_of env s) ws) in
          (if has_raw env s then [[str "raw"]] else []) ++
          (if match own_name (fields_of env s) ws with Some n => beq (local n) l && ordinaryb (space n) && match d with None => true | Some u => beq u (space n) end | None => true end then [] else [[str "own"]]) ++
          (fix go (fs : list fdecl) (ws : list gval) {struct ws} : list (list bytes) :=
             match fs, ws with
             | f :: fs, w :: ws => (if skipped f then [] else map (cons (fd_name f)) ((if fieldb env i s own f w then [] else [[str "field"]]) ++ why i (match own with Some u => Some u | None => d end) (label env f) (fd_type f) w)) ++ go fs ws
             | _, _ => []
             end) (fields_of env s) ws
      | _ => [[str "type"]]
      end
  | _ => []
  end.
End D.
'''

TH = '/verif/rocq/theories'
OUT = '/tmp/val'

def go_g(x):
    s = repr(x)
    return s[:-2] if s.endswith('.0') else s

def coq_bytes(b):
    return '[' + ';'.join(str(c) for c in b) + ']%Z'

def tree(e):
    return (e.tag, sorted(e.attrib.items()), (e.text or '').strip(), sorted((tree(c) for c in e), key=repr))

os.makedirs(OUT, exist_ok=True)
files = sorted(glob.glob('/repo/mpd/testdata/*/*.mpd'))
if len(sys.argv) > 1:
    files = [f for f in files if sys.argv[1] in f]
v = ['From Coq Require Import String.', 'From Coq Require Import ZArith List Bool SpecFloat.',
     'From Verif Require Import Base Float64 Utf8 Lexer Escape Decoder Printer Writer GoType Schema TypeInfo Simple Marshal Unmarshal RoundTripSpec RoundTripTest.',
     'Import ListNotations.', 'Open Scope Z_scope.', '']
v.append(WHY)
for i, f in enumerate(files):
    b = open(f, 'rb').read()
    nums = sorted(set(re.findall(r'["\']\s*([0-9]*\.?[0-9]+(?:[eE][-+]?[0-9]+)?)\s*["\']', b.decode())) | {'0'})
    nums = sorted(set(nums) | {go_g(float(n)) for n in nums})
    vals = sorted(set(float(n) for n in nums) - {0.0})
    pairs = ' ; '.join('(%s, %s)' % (coq_bytes(n.encode()), 'S754_zero false' if float(n) == 0 else 'S754_finite false %d 0' % (vals.index(float(n)) + 1)) for n in nums)
    outs = ' ; '.join(coq_bytes(go_g(x).encode()) for x in vals)
    v.append(f'''Definition F{i} : floats :=
  let fmt (f : f64) := match f with S754_zero _ => str "0" | S754_finite _ m _ => nth (Pos.to_nat m - 1) [{outs}] [] | _ => str "Inf" end in
  mkfl (fun _ f => fmt f) fmt (fun _ s => option_map snd (find (fun p => beq (fst p) s) [{pairs}])) (fun _ => 0).
Definition doc{i} : bytes := {coq_bytes(b)}.
Eval vm_compute in ({i}%nat, match mpd_from_bytes F{i} mpd_types 10 doc{i} with Ok g => firstn 4 (why F{i} mpd_types false None [] (TStruct (str "MPD")) g) | _ => [] end).
''')
open(OUT + '/Docs.v', 'w').write('\n'.join(v))
p = subprocess.run(['coqc', '-Q', TH, 'Verif', OUT + '/Docs.v'], capture_output=True, text=True)
print(p.stderr[:2000])

for blk in p.stdout.split('     = ')[1:]:
    m=re.match(r'\((\d+)%nat',blk); print(files[int(m[1])])
    for x in re.findall(r'\[(\[[^\]]*\](?:;\s*\[[^\]]*\])*)\]',blk.split(':')[0]):
        print('   ','/'.join(bytes(int(c) for c in re.findall(r'\d+',y)).decode() for y in re.findall(r'\[[^\]]*\]',x)))
