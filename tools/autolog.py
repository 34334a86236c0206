#!/usr/bin/env python3
"""append the caught mutants of automut.py run to seeded/LOG.jsonl: autolog.py OUT.jsonl... (skips what is there already)"""
import json,sys
props={p['id']:p['title'] for p in map(json.loads,open('/verif/properties.jsonl'))}
have={(d['definition'],d['edit']) for d in map(json.loads,open('/verif/seeded/LOG.jsonl'))}
out=open('/verif/seeded/LOG.jsonl','a'); n=0
for f in sys.argv[1:]:
    for l in open(f):
        d=json.loads(l)
        if d['result']!='caught' or not d['theorems']: continue
        k=(d['file'][:-2]+'.'+d['definition'],d['edit'])
        if k in have: continue
        have.add(k)
        c=d['theorems'][0].split('_')[0]
        fb=[b for b in d['broken'] if not ('_ex' in b or '_case' in b)] or d['broken']
        out.write(json.dumps(dict(definition=k[0],edit=k[1],claim='%s (%s)'%(c,props.get(c,'')),theorems_failed=d['theorems'],first_broken_lemma=(fb or [''])[0],theorems_tightened=[]))+'\n'); n+=1
print(n)
