"""Writes /verif/ASSUMPTIONS.md: what Print Assumptions lists for every theorem of Props/."""
import re,os,subprocess,tempfile
T='/verif/rocq/theories'
q='';names=[]
for f in sorted(os.listdir(T+'/Props')):
    if f.endswith('.v'):
        q+=f'From Verif.Props Require {f[:-2]}.\n'
        names+=[(f[:-2],n) for n in re.findall(r'^Theorem (C\d\d\w*)',open(f'{T}/Props/{f}').read(),re.M)]
q+=''.join(f'Print Assumptions {f}.{n}.\n' for f,n in names)
d=tempfile.mkdtemp(); open(d+'/q.v','w').write(q)
out=subprocess.run(['coqc','-Q',T,'Verif',d+'/q.v'],capture_output=True,text=True).stdout
parts=re.split(r'^(?=Closed under|Axioms:)',out,flags=re.M)[1:]
assert len(parts)==len(names),(len(parts),len(names))
groups={}
for (f,n),p in zip(names,parts):
    ax=() if p.startswith('Closed') else tuple(sorted(re.findall(r'^([\w.\']+) ?:?$|^([\w.\']+) :',p,re.M)))
    ax=tuple(sorted({a or b for a,b in ax}-{'Axioms'})) if ax else ()
    groups.setdefault(ax,[]).append(n)
s='# What `Print Assumptions` lists\n\nGenerated by tools/assumptions.py from the theorems of rocq/theories/Props.\n'
for ax,ns in sorted(groups.items(),key=lambda x:len(x[0])):
    s+='\n## '+('Closed under the global context (no axioms)' if not ax else 'Axioms of the standard library: '+', '.join(f'`{a}`' for a in ax))+'\n\n'+', '.join(sorted(ns))+'\n'
open('/verif/ASSUMPTIONS.md','w').write(s)
print({len(k):len(v) for k,v in groups.items()})
