#!/usr/bin/env python3
"""reg.py FILE: register a property; FILE is Python setting prop (a p(...) line), files, note, plan (row of section 2), finding (row of section 4 or None)"""
import subprocess,sys
g={}; exec(open(sys.argv[1]).read(),g)
open('/tmp/_p','w').write(g['prop'].strip()+'\n')
subprocess.run(['python3','/verif/tools/addprop.py','/tmp/_p'],check=True); subprocess.run(['python3','/verif/tools/props.py'],check=True)
i=g['prop'].split("'")[1]
o=open('/verif/tools/order.txt').read().strip()
open('/verif/tools/order.txt','w').write(o+''.join(' '+f for f in g['files'].split() if f not in o.split())+'\n')
if g.get('note'): open('/verif/tools/notes.txt','a').write(f"{i} {g['note']}\n")
s=open('/verif/DESIGN.md').read(); n=int(i[1:])
k=s.index('\n',s.index(f'| C{n-1:02d} |')); s=s[:k]+f"\n| {i} | {g['plan']} |"+s[k:]
if g.get('finding'):
    k=s.index('\n\nOther observations'); s=s[:k]+f"\n| {i} | {g['finding']} |"+s[k:]
for a,b in g.get('subst',[]):
    assert a in s,a; s=s.replace(a,b)
open('/verif/DESIGN.md','w').write(s)
subprocess.run(['python3','/verif/tools/manifest.py'],check=True)
