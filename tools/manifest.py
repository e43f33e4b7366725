#!/usr/bin/env python3
"""Regenerates MANIFEST.json from the table below and checks every theorem name exists."""
import json,re,glob,os
root=os.path.dirname(os.path.dirname(os.path.abspath(__file__)))
C=[]
def claim(p,status,theorems,note): C.append(dict(property=p,status=status,theorems=theorems.split(),note=note))
exec(open(os.path.join(root,'tools','claims.py')).read())
names=set()
for f in glob.glob(os.path.join(root,'rocq/theories/*.v')):
    names|=set(re.findall(r'^\s*Theorem\s+([\w\']+)',open(f).read(),re.M))
used=set()
for c in C:
    for t in c['theorems']:
        used.add(t)
        if t not in names: print('MISSING',c['property'],t)
print('unused theorems:',sorted(names-used))
ids=[json.loads(l)['id'] for l in open(os.path.join(root,'properties.jsonl'))]
print('no claim for:',[i for i in ids if i not in {c['property'] for c in C}])
json.dump({"claims":C},open(os.path.join(root,'MANIFEST.json'),'w'),indent=1)
