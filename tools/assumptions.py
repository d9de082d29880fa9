#!/usr/bin/env python3
"""Run Print Assumptions on every claimed theorem and write the result between the
markers in DESIGN.md.  Needs a built tree in rocq/."""
import json,subprocess,re,os,sys
root='/verif'
m=json.load(open(f'{root}/MANIFEST.json'))
names=[]
for c in m['claims']:
    for t in c['theorems']:
        if t not in names: names.append(t)
where={}
for f in sorted(os.listdir(f'{root}/rocq/theories')):
    if f.endswith('.v'):
        for t in re.findall(r'^\s*(?:Theorem|Lemma)\s+([\w\']+)',open(f'{root}/rocq/theories/{f}').read(),re.M):
            where.setdefault(t,[]).append(f[:-2])
by={}
for n in names:
    short=n.split('.')[-1]
    f=where[short][-1] if '.' not in n else n.split('.')[-2]
    by.setdefault(f,[]).append(short)
out={}
for f,l in by.items():
    src=f'From Verif Require {f}.\n'+''.join(f'Print Assumptions Verif.{f}.{n}.\n' for n in l)
    p='/tmp/pa_check.v'; open(p,'w').write(src)
    r=subprocess.run(['coqc','-Q',f'{root}/rocq/theories','Verif',p],capture_output=True,text=True,cwd='/tmp')
    if r.returncode: sys.exit(f+': '+r.stderr)
    blocks=re.split(r'^(?=Axioms:|Closed under)',r.stdout,flags=re.M)[1:]
    assert len(blocks)==len(l),(f,len(blocks),len(l))
    for n,b in zip(l,blocks):
        ax=sorted({x.split('.')[-1] for x in re.findall(r'^([A-Za-z_][\w.\']*)\s*(?::|$)',b,re.M) if x not in('Axioms',)}) if b.startswith('Axioms') else []
        out.setdefault(tuple(ax),[]).append(n)
txt='Generated by tools/assumptions.py from `Print Assumptions` of every theorem named in MANIFEST.json.\n'
for ax in sorted(out,key=lambda a:(len(a),a)):
    txt+='\n**'+('Closed under the global context (no axioms)' if not ax else 'Axioms: '+', '.join(f'`{a}`' for a in ax))+f'** ({len(out[ax])} theorems):\n'
    txt+=', '.join(sorted(out[ax]))+'.\n'
d=open(f'{root}/DESIGN.md').read()
a,b='<!-- assumptions begin -->','<!-- assumptions end -->'
i,j=d.index(a)+len(a),d.index(b)
open(f'{root}/DESIGN.md','w').write(d[:i]+'\n'+txt+d[j:])
print({k:len(v) for k,v in out.items()})
