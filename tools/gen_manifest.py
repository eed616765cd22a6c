#!/usr/bin/env python3
"""Builds MANIFEST.json from tools/claims.txt: lines 'ID|status|thm1 thm2|note'."""
import json,re,glob,sys
names=set()
for f in glob.glob('/verif/rocq/theories/*.v'):
    names|=set(re.findall(r'^(?:Theorem|Lemma|Corollary)\s+(\w+)',open(f).read(),re.M))
out=[];ok=True
for l in open('/verif/tools/claims.txt'):
    l=l.rstrip('\n')
    if not l or l[0]=='#': continue
    i,st,th,note=l.split('|',3)
    th=th.split()
    for t in th:
        if t not in names: print('missing theorem',t); ok=False
    out.append(dict(property=i,status=st,theorems=th,note=note))
ids=[json.loads(l)['id'] for l in open('/verif/properties.jsonl')]
have=[c['property'] for c in out]
print('unclaimed:',[i for i in ids if i not in have], 'dups:',[i for i in have if have.count(i)>1],'unknown',[i for i in have if i not in ids])
json.dump(dict(claims=out),open('/verif/MANIFEST.json','w'),indent=1)
sys.exit(0 if ok else 1)
