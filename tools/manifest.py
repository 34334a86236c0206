#!/usr/bin/env python3
"""Regenerates MANIFEST.json from the theorem names in rocq/theories/Properties_*.v and tools/notes.json."""
import re, glob, json, os
root=os.path.dirname(os.path.dirname(os.path.abspath(__file__)))
props=[json.loads(l) for l in open(root+'/properties.jsonl') if l.strip()]
notes=json.load(open(root+'/tools/notes.json')) if os.path.exists(root+'/tools/notes.json') else {}
thms={}
for f in sorted(glob.glob(root+'/rocq/theories/Properties_*.v')):
    for m in re.finditer(r'^Theorem (C\d\d+)(\w*)',open(f).read(),re.M):
        thms.setdefault(m.group(1),[]).append(m.group(1)+m.group(2))
claims=[]
for p in props:
    i=p['id']; ts=thms.get(i,[])
    if not ts: 
        print('no theorem for',i,p['title']); continue
    part=any('_partial' in t or '_refuted' in t for t in ts)
    n=notes.get(i,'')
    if any('_refuted' in t for t in ts): n=('The claim as stated is FALSE of the code: see the _refuted theorem(s). '+n).strip()
    claims.append(dict(property=i,status='partial' if part else 'proved',theorems=ts,note=n))
json.dump({'claims':claims},open(root+'/MANIFEST.json','w'),indent=1)
print(len(claims),'claims',sum(c['status']=='proved' for c in claims),'proved')
