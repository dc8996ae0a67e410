#!/usr/bin/env python3
"""Rebuild MANIFEST.json: theorem names are collected from theories/*_Props.v by their
Cnn_ prefix; status and note come from tools/status.txt (Cnn|status|note)."""
import re,json,glob,os
root=os.path.dirname(os.path.dirname(os.path.abspath(__file__)))
th={}
for f in sorted(glob.glob(root+'/rocq/theories/*_Props.v')):
    for m in re.finditer(r'^\s*Theorem\s+((C\d+)_\w+)',open(f).read(),re.M):
        th.setdefault(m.group(2),[]).append(m.group(1))
claims=[]
seen=set()
for l in open(root+'/tools/status.txt'):
    l=l.strip()
    if not l or l.startswith('#'): continue
    i,st,note=l.split('|',2)
    seen.add(i)
    if st!='not_applicable' and i not in th: print('no theorem for',i); continue
    claims.append({"property":i,"status":st,"theorems":th.get(i,[]),"note":note})
for i in th:
    if i not in seen: print('no status for',i)
json.dump({"claims":claims},open(root+'/MANIFEST.json','w'),indent=1)
ids=[json.loads(l)['id'] for l in open(root+'/properties.jsonl')]
print(len(claims),'claims;','missing:',[i for i in ids if i not in [c['property'] for c in claims]])
