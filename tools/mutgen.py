#!/usr/bin/env python3
"""Random one-token edits of the definitions of the model, as input for mutate.py.
Usage: mutgen.py SEED PER_DEFINITION FILE[:CLAIM]... > list   (FILE is the name of a theory)"""
import sys, re, random
T='/verif/rocq/theories/'
OPS=[(r'<=\?',['<?']),(r'<\?',['<=?']),(r'&&',['||']),(r'\|\|',['&&']),(r'\bnegb \(',['id (']),(r'\btrue\b',['false']),(r'\bfalse\b',['true']),
     (r'(?<![\w.])(\d+)(?![\w.])',None),(r' \+ ',[' - ']),(r' - ',[' + ']),(r'str "([^"]+)"',None),(r'\bSome\b(?= [a-z(])',None),(r'\bOk v\b',None),(r'\+\+',None)]
def blank_comments(s):
    out=list(s); d=0; i=0
    while i<len(s):
        if s.startswith('(*',i): d+=1; out[i]=out[i+1]=' '; i+=2; continue
        if s.startswith('*)',i) and d: d-=1; out[i]=out[i+1]=' '; i+=2; continue
        if d and s[i]!='\n': out[i]=' '
        i+=1
    return ''.join(out)
def main():
    random.seed(int(sys.argv[1])); per=int(sys.argv[2]); res=[]
    for a in sys.argv[3:]:
        file,_,claim=a.partition(':')
        s=open(T+file+'.v').read(); b=blank_comments(s)
        for m in re.finditer(r'^\s*(Definition|Fixpoint|with)\s+([\w\']+)(.*?)\.(?=\s|$)', b, re.M|re.S):
            i=b.find(':=', m.start(), m.end())
            if i<0: continue
            sites=[]
            for pat,reps in OPS:
                for x in re.finditer(pat, b[i+2:m.end()]):
                    st=i+2+x.start(); en=i+2+x.end(); old=s[st:en]
                    if reps: new=random.choice(reps)
                    elif old.isdigit(): new=str(int(old)+1)
                    elif old.startswith('str'): new='str "'+x.group(1)[:-1]+('x' if x.group(1)[-1]!='x' else 'y')+'"'
                    else: continue
                    sites.append((st,en,new))
            random.shuffle(sites)
            for st,en,new in sites[:per]:
                l,r=st,en
                while s.count(s[l:r])>1:
                    l=max(0,l-8); r=min(len(s),r+8)
                res.append((file, s[l:r], s[l:st]+new+s[en:r], m.group(2), claim or '?'))
    print('[')
    for t in res: print(repr(t)+',')
    print(']')
main()
