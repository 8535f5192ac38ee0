#!/usr/bin/env python3
"""Mutation tests: apply one edit to a scratch copy of the model, rebuild, report what no longer holds.
Usage: mutate.py FILE...   (each FILE is a Python list of (file, old, new, definition, claim))
Results are appended to /verif/seeded/LOG.jsonl.  With FAST=1 the build stops at the first file that fails; the theorems
counted as lost are then those of that file and of the files that depend on it."""
import sys, os, re, json, subprocess, shutil, ast
SRC=os.environ.get('MUTSRC','/verif/rocq'); FAST=os.environ.get('FAST'); W=os.environ.get('MUTDIR','/tmp/mut')+'/rocq'; J=os.environ.get('MUTJ','3')
LOG='/verif/seeded/LOG.jsonl'
def sh(c, **k): return subprocess.run(c, shell=True, capture_output=True, text=True, **k)
def enclosing(path, line):
    name='?'
    for i,l in enumerate(open(path),1):
        if i>line: break
        m=re.match(r'\s*(?:Theorem|Lemma|Example|Corollary|Fact|Remark|Definition|Fixpoint|Instance|Inductive)\s+([\w\']+)', l)
        if m: name=m.group(1)
    return name
def theorems(path):
    return re.findall(r'^\s*Theorem\s+(C\d\d_[\w\']+)', open(path).read(), re.M)
def dependents(fails):
    users={}
    for l in sh(f'cd {W} && coqdep -f _CoqProject 2>/dev/null').stdout.splitlines():
        m=re.match(r'theories/(\w+)\.vo\b[^:]*: (.*)', l)
        if m:
            for d in re.findall(r'theories/(\w+)\.vo\b', m.group(2)): users.setdefault(d,[]).append(m.group(1))
    todo=list(fails); seen=set(todo)
    while todo:
        for u in users.get(todo.pop(),[]):
            if u not in seen: seen.add(u); todo.append(u)
    return seen
def main():
    muts=[]
    for f in sys.argv[1:]: muts+=ast.literal_eval(open(f).read())
    for (file, old, new, defn, claim) in muts:
        os.makedirs(os.path.dirname(W),exist_ok=True)
        sh(f'rsync -a --delete {SRC}/ {W}/') if shutil.which('rsync') else sh(f'rm -rf {W}; cp -a {SRC} {W}')
        p=f'{W}/theories/{file}.v'; s=open(p).read()
        if s.count(old)!=1: print('SKIP', file, defn, 'matches', s.count(old)); continue
        open(p,'w').write(s.replace(old,new))
        r=sh(f'cd {W} && coq_makefile -f _CoqProject -o Makefile && timeout 3000 make {"" if FAST else "-k"} -j{J}')
        out=r.stdout+r.stderr
        fails=[]
        for m in re.finditer(r'File "\./theories/(\w+)\.v", line (\d+), characters [^\n]*\n(?:Error|.*\nError|.*\n.*\nError)', out):
            fails.append((m.group(1), enclosing(f'{W}/theories/{m.group(1)}.v', int(m.group(2)))))
        lost=[]
        # property files that did not build
        if FAST: todo=dependents({a for a,_ in fails})
        else:
            q=sh(f'cd {W} && make -n -k 2>/dev/null').stdout
            todo=set(re.findall(r'theories/(\w+)\.v\b', q))
        for t in sorted(todo):
            tp=f'{W}/theories/{t}.v'
            for th in theorems(tp): lost.append(th)
        first=[f for f in fails]
        rec=dict(definition=f'{file}.v:{defn}', edit=dict(old=old,new=new), claim=claim,
                 failed=[f'{a}.{b}' for a,b in first],
                 theorems_no_longer_proved=[t for t in lost if t.startswith(claim)] or lost, all_blocked=len(lost), tightened=[])
        with open(LOG,'a') as g: g.write(json.dumps(rec)+'\n')
        print(('SURVIVED' if not fails and r.returncode==0 else 'killed' if fails else 'BROKEN'), file, defn, claim, rec['failed'], len(lost), flush=True)
main()
