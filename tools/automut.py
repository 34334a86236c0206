#!/usr/bin/env python3
"""Automatic mutants of the model.  automut.py gen SEED PER_DEF OUT.json FILE.v... ; automut.py run LIST.json OUT.jsonl K N
[gen] makes up to PER_DEF random one-token edits of every definition of the files; [run] builds each edited model
(worker K of N) and stops at the first proof that breaks and that some property theorem rests on."""
import re,sys,os,json,random,shutil,subprocess
sys.path.insert(0,os.path.dirname(os.path.abspath(__file__)))
import mutate
BASE=os.environ.get('MUT_ROOT','/tmp/mut/base')
def strip_comments_spans(t):
    sp=[];d=0;i=0
    while i<len(t)-1:
        if t[i:i+2]=='(*':
            if d==0: st=i
            d+=1;i+=2;continue
        if t[i:i+2]=='*)' and d:
            d-=1;i+=2
            if d==0: sp.append((st,i))
            continue
        i+=1
    return sp
EXC=['KeyError','TypeError','AttributeError','ValueError','IndexError','NameError']
def cands(body):
    sp=strip_comments_spans(body)
    inc=lambda p:any(a<=p<b for a,b in sp)
    out=[]
    def sub(rx,f):
        for m in re.finditer(rx,body):
            if inc(m.start()): continue
            r=f(m)
            if r is None: continue
            for x in (r if isinstance(r,list) else [r]):
                if x!=m.group(0): out.append((m.start(),m.end(),x))
    sub(r'\bnegb ',lambda m:'')
    sub(r'&&',lambda m:'||'); sub(r'\|\|',lambda m:'&&')
    sub(r'\btrue\b',lambda m:'false'); sub(r'\bfalse\b',lambda m:'true')
    for a,b in [('Z.ltb','Z.leb'),('Nat.ltb','Nat.leb'),('fst','snd'),('firstn','skipn'),('existsb','forallb'),('lstrip','rstrip'),('filter','(fun f l => filter (fun x => negb (f x)) l)'),('andb','orb'),('Z.max','Z.min')]:
        sub(r'(?<![\w.])'+re.escape(a)+r'(?![\w.])',lambda m,b=b:b)
        if re.match(r'^[\w.]+$',b): sub(r'(?<![\w.])'+re.escape(b)+r'(?![\w.])',lambda m,a=a:a)
    sub(r'(?<![\w.])rev(?![\w.])',lambda m:'(fun l => l)')
    sub(r'(?<![\w.\'"])(\d+)(?![\w.\'"])',lambda m:[str(int(m.group(1))+1)])
    sub(r'\b('+'|'.join(EXC)+r')\b',lambda m:random.choice([e for e in EXC if e!=m.group(1)]))
    sub(r'\$"([^"]*)"',lambda m:'$"'+m.group(1)+'x"')
    sub(r'\bVNone\b',lambda m:'(VList [])')
    sub(r'\bFNone\b',lambda m:'(FBool false)')
    sub(r'\bKNone\b',lambda m:'(KI 0)')
    sub(r'\bdset (\w+)',lambda m:'(fun d _ _ => d) '+m.group(1))
    sub(r'\+\+',lambda m:'_FLIP_') if False else None
    # x ++ y with simple operands
    sub(r'(?<![\w\])\'"])([\w]+|\[[\w ]*\]) \+\+ ([\w]+|\[[\w ]*\])(?![\w\'.(\[])',lambda m:[m.group(2)+' ++ '+m.group(1),m.group(1),m.group(2)])
    sub(r'(?<![\w\])\'"])(\w+) :: (\w+)(?![\w\'.(\[])(?! =>)(?!,)(?!\])',lambda m:[m.group(2),m.group(2)+' ++ ['+m.group(1)+']'])
    # if conditions
    for m in re.finditer(r'\bif\b',body):
        if inc(m.start()): continue
        d=1;pos=m.end()
        for k in re.finditer(r'\b(if|then)\b',body[m.end():]):
            d+=1 if k.group(1)=='if' else -1
            if d==0: e=m.end()+k.start();break
        else: continue
        c=body[m.end():e].strip()
        out.append((m.start(),e,'if negb (%s) '%c))
    return out
def gen(seed,per,outp,files):
    random.seed(seed);L=[]
    for f in files:
        t=open(BASE+'/theories/'+f).read()
        for k,n,s,e in mutate.items(t):
            if k not in('Definition','Fixpoint'): continue
            body=t[s:e]; m=re.search(r':=',body)
            if not m: continue
            cs=[c for c in cands(body) if c[0]>m.start()]
            random.shuffle(cs)
            for a,b,x in cs[:per]:
                ctx=body[max(0,a-25):a].split('\n')[-1]
                L.append(dict(file=f,definition=n,s=s+a,e=s+b,new=x,edit='...%s[%s -> %s]'%(ctx,body[a:b],x)))
    json.dump(L,open(outp,'w'),indent=0);print(len(L))
def run(lp,outp,K,N):
    L=json.load(open(lp)); src=os.environ.get('MUT_SRC','/tmp/mut/a')+str(K)
    shutil.rmtree(src,ignore_errors=True); shutil.copytree(BASE,src,symlinks=True); 
    deps,kind=mutate.graph(BASE)
    done=set()
    if os.path.exists(outp): done={json.loads(l)['n'] for l in open(outp)}
    for i,m in enumerate(L):
        if i%N!=K or i in done: continue
        subprocess.run(['rsync','-a','--delete',BASE+'/',src+'/']) if shutil.which('rsync') else (shutil.rmtree(src),subprocess.run(['cp','-a',BASE,src]))
        p=src+'/theories/'+m['file'];t=open(p).read();t=t[:m['s']]+m['new']+t[m['e']:];open(p,'w').write(t)
        bad=[];res=None;names=[]
        for it in range(40):
            r=subprocess.run('timeout 1500 make -j1 '+os.environ.get('MUT_TARGET','')+' 2>&1',shell=True,cwd=src,capture_output=True,text=True)
            er=re.search(r'^File "\./theories/(\w+\.v)", line (\d+), characters (\d+)-\d+:\s*\n(Error[^\n]*\n?[^\n]*)',r.stdout,re.M)
            if not er:
                res='survived' if r.returncode==0 else 'error '+r.stdout[-200:]; break
            f,l,c,msg=er.groups(); q=src+'/theories/'+f; t=open(q).read(); pos=sum(len(x)+1 for x in t.split('\n')[:int(l)-1])+int(c)
            its=[x for x in mutate.items(t) if x[2]<=pos<x[3]]
            if not its: res='invalid';break
            k,n,s,e=its[-1];body=t[s:e]
            mm=re.search(r'\bProof( using[^.]*)?\.',body);m2=re.search(r'\b(Qed|Defined)\.',body)
            if k in('Definition','Fixpoint') or not mm or not m2: res='invalid';break
            names.append(n); d=mutate.dependents([n],deps,kind)
            if d: res='caught';bad=d;break
            t=t[:s]+body[:mm.start()]+'Proof. Admitted.'+body[m2.end():]+t[e:];open(q,'w').write(t)
        o=dict(n=i,file=m['file'],definition=m['definition'],edit=m['edit'],result=res,broken=names,theorems=bad)
        open(outp,'a').write(json.dumps(o)+'\n')
        print(i,res,m['definition'],m['edit'][:80],names[:3],bad[:2],flush=True)
if __name__=='__main__':
    if sys.argv[1]=='gen': gen(int(sys.argv[2]),int(sys.argv[3]),sys.argv[4],sys.argv[5:])
    else: run(sys.argv[2],sys.argv[3],int(sys.argv[4]),int(sys.argv[5]))
