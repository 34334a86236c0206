import json,os,subprocess,sys,concurrent.futures as cf
cases=json.load(open('/tmp/conf/cases.json'))
only=sys.argv[1:]
H='''From Verif Require Import PyBase Regex Results Template Attributes FormRegex MatchVar MatchFuncs GroupFuncs Parser Compile FuncTable Session Files Inputs Load Run RunSeen.
Local Open Scope string_scope.
Local Open Scope list_scope.
Definition shr (r : res val) : string := match r with Ok v => string_of_list_ascii (py_repr v) | Raise e => match e with KeyError=>"E:KeyError"|IndexError=>"E:Index"|TypeError=>"E:Type"|ValueError=>"E:Value"|AttributeError=>"E:Attr"|UnboundLocalError=>"E:Unb"|ReError=>"E:Re"|SystemExit=>"E:Exit"|RuntimeError=>"E:Runtime"|FileNotFoundError=>"E:FNF" | ParseError => "E:Parse" end end.
'''
def cs(s):
    return '$"'+s.replace('"','""')+'"'
def cv(v):
    if v is None: return 'VNone'
    if isinstance(v,bool): return 'VBool '+('true' if v else 'false')
    if isinstance(v,int): return 'VInt (%d)'%v
    if isinstance(v,str): return 'VStr '+cs(v)
    if isinstance(v,list): return 'VList ['+'; '.join(cv(x) for x in v)+']'
    if isinstance(v,dict): return 'VDict '+cd(v)
    raise ValueError('type '+type(v).__name__)
def ck(k):
    if k is None: return 'KNone'
    if isinstance(k,str): return 'KS '+cs(k)
    if isinstance(k,int): return 'KI (%d)'%k
    raise ValueError('key')
def cd(d): return '['+'; '.join('(%s, %s)'%(ck(k),cv(x)) for k,x in d.items())+']'
def text(x):
    if not isinstance(x,str): raise ValueError('data '+type(x).__name__)
    if len(x)<5000 and '\n' not in x:
        p=os.path.join('/repo/test/pytest',x)
        if os.path.isfile(p): return open(p,encoding='utf8').read()
        if os.path.isdir(p): raise ValueError('dir')
    return x
def check(s):
    if any(ord(c)>126 or (ord(c)<32 and c not in '\n\t') for c in s): raise ValueError('nonascii')
    return s

import re
def world(texts):
    files={};dirs={};todo=list(texts);seen=set()
    while todo:
        t=todo.pop()
        for m in set(re.findall(r'[\w./-]+',t)):
            for m2 in {m, m.strip('.'), m.rstrip('/')}:
              for p in ([m2]+ ['./assets/'+m2,'./mock_data/'+m2,'./'+m2]):
                if p in seen or not p or p in('.','/','./','..') or p.startswith('/'): continue
                seen.add(p); q=os.path.join('/repo/test/pytest',p)
                if os.path.isfile(q):
                    try: x=open(q,encoding='utf8').read(); check(x)
                    except Exception: continue
                    files[p]=x; todo.append(x)
                elif os.path.isdir(q) and os.path.basename(os.path.normpath(q)) not in ('assets','mock_data','yang_modules','pytest') and q.count('/')>4 and 'pytest/.' not in q.replace('pytest/./',''):
                    dirs[p]=sorted(os.listdir(q))
                    for f in dirs[p]:
                        if os.path.isfile(q+'/'+f):
                            k=p+('' if p.endswith('/') else '/')+f
                            try: x=open(q+'/'+f,encoding='utf8').read(); check(x)
                            except Exception: continue
                            files[k]=x
    return files,dirs
def gen(i,c):
    if len(c['tpl'])!=1: raise ValueError('templates %d'%len(c['tpl']))
    t=c['tpl'][0]; ds=c['data']
    if not isinstance(t,str): raise ValueError('template type')
    if '\n' not in t and os.path.isfile('/repo/test/pytest/'+t): t=open('/repo/test/pytest/'+t).read()
    check(t)
    for d in ds:
        if isinstance(d,str): check(d)
    expect=eval(c['expect'])
    if c['vars'] and not isinstance(c['vars'],dict): raise ValueError('vars')
    files,dirs=world([t]+[d for d in ds if isinstance(d,str)])
    w='{| w_file := fun p => assoc p [%s]; w_dir := fun p => assoc p [%s]; w_tdir := None; w_exec := fun _ => out_of_model |}'%('; '.join('(%s, %s)'%(cs(k),cs(v)) for k,v in files.items()),'; '.join('(%s, [%s])'%(cs(k),'; '.join(cs(x) for x in v)) for k,v in dirs.items()))
    kw=c.get('kw') or {}
    call=('ttp_result_with' if kw else 'ttp_seen')+' (fun _ => None) %s sort_set (%s) %s %s %s [%s] %s'%('true' if c['k2i'] else 'false',w,cs(c.get('base') or ''),cd(c['vars'] or {}),cs(t),'; '.join('(%s, %s)'%(cv(d),cs(n)) for d,n in zip(ds,c['names'])),(cd(kw)+' ' if kw else '')+cs(c['structure']))
    return call,expect
def one(i):
    c=cases[i]
    try: call,expect=gen(i,c)
    except ValueError as e: return i,'skip',str(e),''
    for j in c['idx']:pass
    f='/tmp/conf/c%d.v'%i
    open(f,'w').write(H+'Eval vm_compute in shr (%s).\n'%call)
    try: r=subprocess.run(['coqc','-Q','/verif/rocq/theories','Verif',f],capture_output=True,text=True,timeout=300)
    except subprocess.TimeoutExpired: return i,'timeout','',''
    o=r.stdout
    if r.returncode: return i,'coqerr',r.stderr[-300:],''
    a=o.index('= "')+3; b=o.rindex('"\n     : string'); s=o[a:b].replace('""','"')
    if s.startswith('E:'): return i,s,'',''
    try: v=eval(s)
    except Exception as e: return i,'uneval',s[:300],''
    for j in c['idx']: v=v[j]
    return i,('ok' if v==expect else 'MISMATCH'),repr(v),repr(expect)
idx=[int(x) for x in only] if only else range(len(cases))
res={}
with cf.ThreadPoolExecutor(2) as ex:
    for r in ex.map(one,idx):
        res[r[0]]=r
        if only: print(r)
if not only: json.dump(list(res.values()),open('/tmp/conf/res.json','w'),indent=0)
import collections
print(collections.Counter(r[1] for r in res.values()))
