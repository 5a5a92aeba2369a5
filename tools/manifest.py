#!/usr/bin/env python3
"""Regenerates MANIFEST.json: theorems are collected from theories/Prop*.v by their Cnn_ prefix;
   statuses and notes are in tools/notes.json."""
import re,glob,json,os
root=os.path.dirname(os.path.dirname(os.path.abspath(__file__)))
notes=json.load(open(root+'/tools/notes.json'))
th={}
for f in sorted(glob.glob(root+'/rocq/theories/*.v')):
    s=open(f).read()
    for m in re.finditer(r'^Theorem (C\d\d)(\w*)',s,re.M):
        th.setdefault(m.group(1),[]).append(m.group(1)+m.group(2))
claims=[]
for l in open(root+'/properties.jsonl'):
    p=json.loads(l); i=p['id']
    st,note=notes.get(i,[None,''])
    if st is None:
        if i in th: print('no status for',i)
        continue
    claims.append({"property":i,"status":st,"theorems":th.get(i,[]),"note":note})
json.dump({"claims":claims},open(root+'/MANIFEST.json','w'),indent=1)
print(len(claims),'claims',sum(len(c['theorems']) for c in claims),'theorems')
