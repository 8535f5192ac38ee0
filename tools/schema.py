#!/usr/bin/env python3
"""Generate rocq/theories/Schema.v: the struct types of package mpd with their field tags, read from the Go text."""
import re, glob, os
REPO = '/repo/mpd'
BASIC = {'string': 'TString', 'bool': 'TBool', 'int': 'TInt 64', 'int32': 'TInt 32', 'int64': 'TInt 64', 'uint8': 'TUint 8', 'uint16': 'TUint 16',
         'uint32': 'TUint 32', 'uint64': 'TUint 64', 'float32': 'TFloat 32', 'float64': 'TFloat 64', 'xml.Name': 'TName', 'xml.Attr': 'TAttr'}
named, structs = {}, []
for f in sorted(glob.glob(REPO + '/*.go')):
    if f.endswith('_test.go'):
        continue
    lines = open(f).read().split('\n')
    i = 0
    while i < len(lines):
        m = re.match(r'type (\w+) struct \{(\})?', lines[i])
        if m:
            name, start, fields = m.group(1), i + 1, []
            if not m.group(2):
                i += 1
                while lines[i] != '}':
                    fields.append((i + 1, lines[i]))
                    i += 1
            structs.append((name, os.path.basename(f), start, i + 1, fields))
        else:
            m = re.match(r'type (\w+) ([\w\.\*\[\]]+)$', lines[i])
            if m:
                named[m.group(1)] = m.group(2)
        i += 1
names = {s[0] for s in structs}

def ty(t):
    if t.startswith('*'):
        return 'TPtr (%s)' % ty(t[1:])
    if t.startswith('[]'):
        return 'TSlice (%s)' % ty(t[2:])
    if t in BASIC:
        return BASIC[t]
    if t == 'Duration':
        return 'TDuration'
    if t == 'FloatInf64':
        return 'TFloatInf'
    if t in names:
        return 'TStruct (str "%s")' % t
    if t in named:
        return ty(named[t])
    raise SystemExit('unknown type ' + t)

out = ['(** Generated by tools/schema.py from the Go text: every struct type of package mpd with its fields, in order.',
       '    Types other than structs are replaced by their kinds, except Duration and FloatInf64, which have methods;',
       '    the tag is the value of the key xml; a field is embedded if it has no name of its own. *)',
       'From Coq Require Import String.', 'From Coq Require Import ZArith List Bool.', 'From Verif Require Import Base GoType.', 'Import ListNotations.', 'Open Scope Z_scope.', '']
decls = []
for name, f, start, end, fields in structs:
    rows = []
    for ln, l in fields:
        l = re.sub(r'\s*//.*$', '', l) if '`' not in l else re.sub(r'`\s*//.*$', '`', l)
        l = l.strip()
        if not l:
            continue
        tag = ''
        m = re.search(r'`([^`]*)`$', l)
        if m:
            t = re.search(r'(?:^| )xml:"([^"]*)"', m.group(1))
            tag = t.group(1) if t else ''
            l = l[:m.start()].strip()
        w = l.split()
        if len(w) == 1:
            anon, typ = 'true', w[0]
            fname = typ.lstrip('*').split('.')[-1]
        elif len(w) == 2:
            anon, (fname, typ) = 'false', w
        else:
            raise SystemExit('%s:%d: %s' % (f, ln, l))
        try:
            t = ty(typ)
        except SystemExit:
            if tag == '' and not fname[0].isupper() or f in ('errors.go', 'io.go', 'duration.go'):
                rows = None
                break
            raise
        rows.append('  mkfd (str "%s") %s (str "%s") (%s)' % (fname, anon, tag, t))
    if rows is None or f in ('errors.go', 'io.go', 'duration.go'):
        continue
    ident = 'T_' + name
    out.append('(** mpd/%s:%d-%d *)' % (f, start, end))
    out.append('Definition %s : sdecl := mksd (str "%s") [\n%s].' % (ident, name, ';\n'.join(rows)))
    decls.append(ident)
out.append('(** All of them. *)')
out.append('Definition mpd_types : tenv := [%s].' % '; '.join(decls))
open('/verif/rocq/theories/Schema.v', 'w').write('\n'.join(out) + '\n')
print(len(decls), 'types')
