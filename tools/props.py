"""helper: edit/append properties.  usage: from props import load, save, add, edit"""
import json, collections
P='/verif/properties.jsonl'
def load():
    return collections.OrderedDict((d['id'],d) for d in (json.loads(l) for l in open(P) if l.strip()))
def save(ps):
    open(P,'w').write(''.join(json.dumps(d)+'\n' for d in ps.values()))
def add(ps,i,title,statement,quantifier,why,anchors):
    ps[i]=dict(id=i,title=title,statement=statement,quantifier=quantifier,why_tests_cant=why,anchors=anchors)
