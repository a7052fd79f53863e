#!/usr/bin/env python3
"""Seeded wrong programs: apply each edit of tools/mutants_*.json to a scratch copy of
the model, rebuild, turn every lemma whose proof no longer goes through into an
Admitted, and list the property theorems that then rest on one.
usage: mutate.py mutants.json [first [last]]   (appends to seeded/LOG.jsonl)
MUTFAST=1: build and look at the property files of the claim only"""
import json, os, re, shutil, subprocess, sys
V='/verif'; W=os.environ.get('MUTW','/tmp/mut'); B=os.environ.get('MUTB','/tmp/mutbase')  # B: a built snapshot of /verif/rocq
HEAD=re.compile(r'^\s*(?:Lemma|Theorem|Example|Corollary|Fact)\s+(\w+)')
def sh(c,cwd,t=1200):
    return subprocess.run(c,shell=True,cwd=cwd,capture_output=True,text=True,timeout=t)
def admit(path,line,broken):
    src=open(path).read().split('\n')
    k=min(line-1,len(src)-1)
    while k>=0 and not HEAD.match(src[k]): k-=1
    if k<0: return False
    name=HEAD.match(src[k]).group(1)
    e=k
    while e<len(src) and not re.search(r'\b(Qed|Defined|Admitted)\.\s*$',src[e]): e+=1
    if e==len(src) or e+1<line: return False
    txt='\n'.join(src[k:e+1])
    m=re.search(r'\bProof\b',txt)
    if 'Admitted.' in txt or not m: return False
    n=txt[:m.start()]+'Proof. Admitted.'
    src[k:e+1]=n.split('\n')+['']*(txt.count('\n')-n.count('\n'))
    open(path,'w').write('\n'.join(src)); broken.append(os.path.basename(path)[:-2]+'.'+name)
    return True
def run(m):
    shutil.rmtree(W,ignore_errors=True); shutil.copytree(B,W)  # copy2 keeps mtimes
    sh("find theories -name '*.v' | xargs touch -r Makefile",W)
    p=f"{W}/theories/{m['file']}.v"; s=open(p).read()
    edits=m.get('edits') or [[m['old'],m['new']]]
    for o,n in edits:
        assert s.count(o)>=1,(m['def'],o,s.count(o)); 
        assert s.count(o)==1 or m.get('all'),(m['def'],o,s.count(o))
        s=s.replace(o,n)
    open(p,'w').write(s)
    broken=[]; stuck=None
    want=m['claim'].split()[0].strip(':;,')
    own=[f[:-2] for f in sorted(os.listdir(B+'/theories')) if f.startswith('Properties_') and f.endswith('.v') and re.search(r'^Theorem '+want+'_',open(B+'/theories/'+f).read(),re.M)] if os.environ.get('MUTFAST') else []
    targets=[f'theories/{f}.vo' for f in own]
    for _ in range(60):
        r=sh('timeout 900 make -k -j2 '+' '.join(targets),W)
        errs={}
        for f,l in re.findall(r'File "\./theories/(\w+)\.v", line (\d+), characters[^\n]*\n(?=Error|(?:.*\n)?Error)',r.stderr+r.stdout):
            errs.setdefault(f,int(l))
        if not errs: 
            if r.returncode: stuck=(r.stderr+r.stdout)[-300:]
            break
        prog=False
        for f,l in errs.items(): prog|=admit(f'{W}/theories/{f}.v',l,broken)
        if not prog: stuck=str(errs); break
    names=[]; ok=[]
    for f in sorted(os.listdir(B+'/theories')):
        if f.startswith('Properties_') and f.endswith('.v') and (not own or f[:-2] in own):
            ns=re.findall(r'^Theorem (C\d+_\w+)',open(B+'/theories/'+f).read(),re.M)
            if os.path.exists(f'{W}/theories/{f}o') and os.path.getmtime(f'{W}/theories/{f}o')>=os.path.getmtime(p)-1 or not stuck: ok.append((f[:-2],ns))
            else: names+=ns
    # only the files rebuilt can have changed
    ok=[(f,ns) for f,ns in ok if os.path.getmtime(f'{W}/theories/{f}.vo')>=os.path.getmtime(p)-1]
    jobs=[]
    for f,ns in ok:
        for q in range(0,len(ns),12):
            c=f'From Verif Require Import {f}.\n'
            for n in ns[q:q+12]: c+=f'Goal True. idtac "MARK {n}". Abort.\nPrint Assumptions {n}.\n'
            j=f'Chk_{f}_{q}'; open(f'{W}/{j}.v','w').write(c); jobs.append(j)
    sh(f"printf '%s\\n' {' '.join(jobs)} | xargs -P 4 -I@ sh -c 'timeout 600 coqc -Q theories Verif @.v > @.out 2>&1'",W) if jobs else None
    out=''.join(open(f'{W}/{j}.out').read() for j in jobs)
    failed=[b.split('\n')[0].strip() for b in out.split('MARK ')[1:] if 'Closed under' not in b]
    unb=names
    return broken,stuck,failed,unb
if __name__=='__main__':
    ms=json.load(open(sys.argv[1])); a=int(sys.argv[2]) if len(sys.argv)>2 else 0; b=int(sys.argv[3]) if len(sys.argv)>3 else len(ms)
    for k,m in list(enumerate(ms))[a:b]:
        try: broken,stuck,failed,unb=run(m)
        except Exception as e: print(k,m['def'],'EXC',e,flush=True); continue
        want=m['claim'].split()[0].strip(':;,')
        hit=any(f.startswith(want) for f in failed+unb)
        d={'definition':m['file']+'.'+m['def'],'edit':m['edit'],'claim':m['claim'],'theorems_failed':failed+unb,'lemmas_broken':broken[:12],'theorems_tightened':[]}
        if stuck: d['note']='the files after the break could not be rebuilt even with the broken lemmas admitted; their theorems are listed as failed'
        if not (failed or unb): d['note']='SURVIVED'
        open(V+'/seeded/LOG.jsonl','a').write(json.dumps(d)+'\n')
        print(k,m['def'],'|',m['edit'],'|',want,'HIT' if hit else '*** MISS',failed[:8],'unb',len(unb),'broken',broken[:4],(stuck or '')[:200],flush=True)
