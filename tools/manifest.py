#!/usr/bin/env python3
"""Writes /verif/MANIFEST.json; checks that every named theorem exists."""
import json,re,glob,os
root=os.path.dirname(os.path.dirname(os.path.abspath(__file__)))
C={}
def claim(pid,status,theorems,note): C[pid]=dict(property=pid,status=status,theorems=theorems.split(),note=note)
exec(open(os.path.join(root,'tools','claims.py')).read())
props=[json.loads(l)['id'] for l in open(os.path.join(root,'properties.jsonl'))]
names=set()
for f in glob.glob(os.path.join(root,'rocq/theories/*.v')):
    names|=set(re.findall(r'^(?:Theorem|Lemma|Example|Corollary)\s+(\w+)',open(f).read(),re.M))
for p,c in C.items():
    assert p in props,p
    for t in c['theorems']:
        assert t in names,(p,t)
missing=[p for p in props if p not in C]
print(len(C),'claims; missing:',missing)
json.dump({"claims":[C[p] for p in props if p in C]},open(os.path.join(root,'MANIFEST.json'),'w'),indent=1)
