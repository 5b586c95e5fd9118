#!/usr/bin/env python3
"""Appends to DESIGN.md what Print Assumptions says for every theorem named in MANIFEST.json."""
import json,subprocess,re,os,glob
os.chdir('/verif/rocq')
m=json.load(open('/verif/MANIFEST.json'))
names=[]
for c in m['claims']:
    for t in c['theorems']:
        if t not in names: names.append(t)
mods=[l.strip()[9:-2] for l in open('_CoqProject') if l.startswith('theories/')]
where={}
for f in mods:
    for t in re.findall(r'^\s*(?:Theorem|Lemma|Corollary|Example)\s+(\w+)',open('theories/%s.v'%f).read(),re.M): where.setdefault(t,f)
src='From Verif Require %s.\n'%' '.join(mods)
for t in names: src+='Goal True. idtac "@@%s". Abort.\nPrint Assumptions Verif.%s.%s.\n'%(t,where[t],t)
open('/tmp/pa.v','w').write(src)
out=subprocess.run(['coqc','-R','theories','Verif','/tmp/pa.v'],capture_output=True,text=True)
assert out.returncode==0,out.stderr
groups={}
for ch in out.stdout.split('@@')[1:]:
    t,_,rest=ch.partition('\n')
    ax=tuple(sorted(re.findall(r'^(\S+)\s*(?::|$)',rest,re.M))) if 'Axioms:' in rest else ()
    ax=tuple(a for a in ax if a!='Axioms:')
    groups.setdefault(ax,[]).append(t.strip())
s=open('/verif/DESIGN.md').read()
s=s.split('## 6. Assumptions')[0].rstrip()+'\n\n## 6. Assumptions per theorem (generated)\n\n'
for ax,ts in sorted(groups.items(),key=lambda x:len(x[0])):
    s+='### '+('Closed under the global context' if not ax else ', '.join('`%s`'%a for a in ax))+'\n\n'+', '.join(ts)+'\n\n'
open('/verif/DESIGN.md','w').write(s)
print({len(k):len(v) for k,v in groups.items()})
