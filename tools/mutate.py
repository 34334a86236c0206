#!/usr/bin/env python3
"""Mutation testing of the theorems.  usage: mutate.py mutations.py OUT.jsonl
Each mutation edits one model file in a scratch copy of rocq/ and rebuilds; every lemma whose proof
breaks is noted and admitted (in the scratch copy only) so that the build goes on.  A property theorem
counts as failed when its own proof or a lemma its proof uses (transitively) broke."""
import re, sys, os, shutil, subprocess, json, glob
ROOT=os.environ.get('MUT_ROOT','/verif/rocq')
SCR=os.environ.get('MUT_DIR','/tmp/mut/w0')
START=re.compile(r'^\s*(?:#\[\w+\]\s*)?(?:Local |Global )?(Lemma|Theorem|Corollary|Fact|Example|Remark|Instance|Definition|Fixpoint|Inductive|Record|CoInductive)\s+([\w\']+)',re.M)
def items(txt):
    ms=list(START.finditer(txt))
    for a,b in zip(ms,ms[1:]+[None]):
        yield a.group(1),a.group(2),a.start(),(b.start() if b else len(txt))
def graph(d):
    deps={};kind={}
    for f in glob.glob(d+'/theories/*.v'):
        t=open(f).read()
        for k,n,s,e in items(t):
            deps.setdefault(n,set()).update(re.findall(r"[\w']+",t[s:e])); kind[n]=k
    return deps,kind
def dependents(bad,deps,kind):
    prov={n for n in kind if kind[n] in('Lemma','Theorem','Corollary','Fact','Remark','Example','Instance')}
    bad=set(bad); ch=True
    while ch:
        ch=False
        for n in prov:
            if n not in bad and deps[n]&bad: bad.add(n); ch=True
    return sorted(n for n in bad if kind.get(n)=='Theorem' and re.match(r'C\d\d',n))
def run(mut):
    src=SCR+'/rocq'
    shutil.rmtree(src,ignore_errors=True); subprocess.run(['cp','-a',ROOT,src],check=True)
    edits=mut['edits'] if 'edits' in mut else [(mut['old'],mut['new'])]
    p=src+'/theories/'+mut['file']; t=open(p).read()
    for o,n in edits:
        if t.count(o)!=1: return dict(mut,error='pattern occurs %d times: %s'%(t.count(o),o))
        t=t.replace(o,n)
    open(p,'w').write(t)
    deps,kind=graph(src)
    bad=[];defs=[]
    subprocess.run('coq_makefile -f _CoqProject -o Makefile',shell=True,cwd=src,capture_output=True)
    for it in range(80):
        r=subprocess.run('timeout 3000 make -k -j%s %s 2>&1'%(os.environ.get('MUT_J','2'),os.environ.get('MUT_TARGET','')),shell=True,cwd=src,capture_output=True,text=True)
        errs=re.findall(r'^File "\./theories/(\w+\.v)", line (\d+), characters (\d+)-\d+:\s*\n(Error[^\n]*\n?[^\n]*)',r.stdout,re.M)
        if not errs:
            if r.returncode: defs.append('make: '+r.stdout[-300:])
            break
        stop=False
        for f,l,c,msg in errs:
            q=src+'/theories/'+f; t=open(q).read(); pos=sum(len(x)+1 for x in t.split('\n')[:int(l)-1])+int(c)
            it_=[(k,n,s,e) for k,n,s,e in items(t) if s<=pos<e]
            if not it_: defs.append(f+':'+l); stop=True; continue
            k,n,s,e=it_[-1]; body=t[s:e]
            m=re.search(r'^Proof[^.]*\.|\bProof( using[^.]*)?\.',body,re.M)
            if not m or k in('Definition','Fixpoint') or (k+n,f) in [(b[0],b[1]) for b in bad]: defs.append(f+':'+n+' '+msg.replace('\n',' ')[:150]); stop=True; continue
            m2=re.search(r'\b(Qed|Defined)\.',body)
            if not m2: defs.append(f+':'+n); stop=True; continue
            t=t[:s]+body[:m.start()]+'Proof. Admitted.'+body[m2.end():]+t[e:]
            open(q,'w').write(t); bad.append((k+n,f,n))
        if stop: break
    names=[b[2] for b in bad]
    return dict(definition=mut['definition'],edit=mut['edit'],file=mut['file'],claim=mut['claim'],broken_lemmas=names,theorems_failed=dependents(names,deps,kind),stopped=defs)
if __name__=='__main__':
    ns={}; exec(open(sys.argv[1]).read(),ns)
    os.makedirs(SCR,exist_ok=True)
    sel=sys.argv[3:] 
    for i,m in enumerate(ns['M']):
        if sel and str(i) not in sel: continue
        r=run(m); r['n']=i
        exp=m.get('expect',[])
        got=r.get('theorems_failed',[])
        r['missing']=[x for x in exp if not any(g.startswith(x) for g in got)]
        print(i,m['definition'],'|',m['edit'],'|',r.get('error') or (len(got),'missing',r['missing'],r.get('stopped')),flush=True)
        open(sys.argv[2],'a').write(json.dumps(r)+'\n')
