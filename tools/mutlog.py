#!/usr/bin/env python3
"""append mutation results to seeded/LOG.jsonl: mutlog.py OUT.jsonl [tightened.json]"""
import json,sys
t=json.load(open(sys.argv[2])) if len(sys.argv)>2 else {}
out=open('/verif/seeded/LOG.jsonl','a')
n=0
for l in open(sys.argv[1]):
    d=json.loads(l)
    if d.get('error') or d.get('stopped'): print('skip',d.get('n'),d['definition'],d.get('error'),d.get('stopped')); continue
    out.write(json.dumps(dict(definition=d['file']+':'+d['definition'],edit=d['edit'],claim=d['claim'],theorems_failed=d['theorems_failed'],theorems_tightened=t.get(d['definition']+'|'+d['edit'],[])))+'\n'); n+=1
print(n)
