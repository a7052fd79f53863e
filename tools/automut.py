#!/usr/bin/env python3
"""Random token-level wrong programs: one edit in each definition of the model, built
until the first proof fails.  What builds to the end is a survivor, to be looked at.
usage: automut.py SNAPSHOT WORKDIR LOG SEED [FILE...]   (SNAPSHOT: a built copy of /verif/rocq)"""
import os, random, re, shutil, subprocess, sys
B,W,LOG,seed=sys.argv[1:5]; random.seed(int(seed))
OPS=[(r'<\?',['<=?']),(r'<=\?',['<?']),(r'(?<![<>!])=\?',['<?','<=?']),(r'&&',['||']),(r'\|\|',['&&']),(r'\bnegb ',['']),
     (r'\btrue\b',['false']),(r'\bfalse\b',['true']),(r'\bfst\b',['snd']),(r'\bsnd\b',['fst']),(r' \+ 1\b',['',' + 2']),(r' - 1\b',['']),
     (r' \+ ',[' - ']),(r' - ',[' + ']),(r'\bSome (\w+)\b(?! *=>)',['None']),(r'\brev ',['']),(r'\bexistsb\b',['forallb']),(r'\bforallb\b',['existsb']),
     (r'\bValueError\b',['TypeError']),(r'\bTypeError\b',['ValueError']),(r'\bIndexError\b',['KeyError']),(r'\bh_start\b',['h_stop']),(r'\bh_stop\b',['h_start']),
     (r'(?<=[ (])0(?=[ );])',['1']),(r'(?<=[ (])1(?=[ );])',['0','2']),(r'lit "(\w)',[lambda m:'lit "'+chr((ord(m.group(1))-32)%94+33)]),
     (r'\bfi_start\b',['fi_stop']),(r'\bfi_stop\b',['fi_start']),(r'Z\.max',['Z.min']),(r'Z\.min',['Z.max']),(r'\bfilter\b',['(fun _ l => l)']),(r'(\w+) \+\+ (\w+)\b',[lambda m:m.group(2)+' ++ '+m.group(1)])]
def defs(src):
    for m in re.finditer(r'^(Definition|Fixpoint|with) (\w+)(.*?)\.(?=\s*\n)(?=\s*(?:\n|$|\(\*|[A-Z]))',src,re.M|re.S):
        yield m.group(2),m.start(),m.end()
order=open('/verif/tools/order.txt').read().split()
model=[f for f in order if not re.match(r'Spec|Properties',f) and 'Facts' not in f and 'Demo' not in f and not re.match('HierHeap',f)]
if len(sys.argv)>5: model=sys.argv[5:]
jobs=[]
for f in model:
    src=open(f'{B}/theories/{f}.v').read()
    for name,a,b in defs(src):
        body=src[a:b]; k=body.find(':=')
        if k<0: continue
        c=[]
        clean=re.sub(r'\(\*.*?\*\)',lambda m:' '*len(m.group()),body,flags=re.S)
        for pat,reps in OPS:
            for m in re.finditer(pat,clean[k:]):
                for r in reps:
                    t=r(m) if callable(r) else r
                    if t!=m.group(): c.append((a+k+m.start(),a+k+m.end(),m.group(),t))
        if c: jobs.append((f,name,random.choice(c)))
random.shuffle(jobs)
log=open(LOG,'a')
for f,name,(a,b,o,n) in jobs:
    shutil.rmtree(W,ignore_errors=True); shutil.copytree(B,W)

    p=f'{W}/theories/{f}.v'; s=open(p).read()
    line=s[:a].count('\n')+1
    open(p,'w').write(s[:a]+n+s[b:])
    try: r=subprocess.run('timeout 1500 make -j1',shell=True,cwd=W,capture_output=True,text=True,timeout=1600)
    except subprocess.TimeoutExpired: log.write(f'TIMEOUT {f}.{name}:{line} {o!r}->{n!r}\n'); log.flush(); continue
    e=re.findall(r'File "\./theories/(\w+)\.v", line (\d+)',r.stderr+r.stdout)
    tag='SURVIVED' if r.returncode==0 else ('illtyped' if e and e[-1][0]==f and int(e[-1][1])<=line+40 and 'Qed' not in r.stderr and re.search(r'has type|not found|Syntax|Cannot guess|ill-formed|expected',r.stderr) else 'killed')
    log.write(f'{tag} {f}.{name}:{line} {o!r}->{n!r} by {e[-1] if e else None}\n'); log.flush()
log.write('DONE\n')
