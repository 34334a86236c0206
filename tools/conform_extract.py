import ast,glob,os,json,sys
cases=[];skipped={}
class Skip(Exception): pass
def lit(n,env):
    if isinstance(n,ast.Name) and n.id in env: 
        v=env[n.id]
        return v
    try: return ast.literal_eval(n)
    except Exception: raise Skip('nonliteral '+ast.dump(n)[:60])
class P: pass
def is_ttp(c): return isinstance(c,ast.Call) and isinstance(c.func,ast.Name) and c.func.id=='ttp'
def run(fn,genv,fname):
    env=dict(genv); out=[]
    def mk(call):
        p=P();p.tpl=[];p.data=[];p.vars={};p.parsed=False;p.k2i=False;p.names=[];p.base='';p.ev=[]
        names=['data','template','log_level','vars'] if False else ['data','template','base_path','log_level','log_file','vars']
        kw={}
        for i,a in enumerate(call.args): kw[names[i]]=lit(a,env)
        for k in call.keywords:
            kw[k.arg]=lit(k.value,env)
        for k,v in kw.items():
            if k=='data' :
                if v: p.data.append(v); p.names.append('_all_')
            elif k=='base_path': p.base=v
            elif k=='template': p.tpl.append(v) if v else None
            elif k=='vars': p.vars=v
            elif k in('log_level','log_file','base_path'): pass
            elif k=='dynamic_path_key_to_int': p.k2i=v
            else: raise Skip('kw '+k)
        return p
    def val(n):
        # evaluate expression possibly a result
        if isinstance(n,ast.Call) and isinstance(n.func,ast.Attribute) and isinstance(n.func.value,ast.Name) and isinstance(env.get(n.func.value.id),P):
            p=env[n.func.value.id]; m=n.func.attr
            if m=='result':
                kw={k.arg:lit(k.value,env) for k in n.keywords}
                if n.args: raise Skip('result args')
                st=kw.pop('structure','list')
                if 'templates' in kw: raise Skip('result templates')
                if not p.parsed: raise Skip('unparsed')
                return ('RES',p.tpl[:],p.data[:],p.vars,p.k2i,st,[],p.names[:],p.base,kw)
            raise Skip('method '+m)
        if isinstance(n,ast.Subscript):
            b=val(n.value)
            if isinstance(b,tuple) and b[0]=='RES':
                i=lit(n.slice,env)
                return b[:6]+(b[6]+[i],)+b[7:]
        if isinstance(n,ast.Name) and n.id in env: return env[n.id]
        return lit(n,env)
    for st in fn.body:
        if isinstance(st,ast.Expr) and isinstance(st.value,ast.Constant): continue
        if isinstance(st,(ast.Import,ast.ImportFrom,ast.Pass)): continue
        if isinstance(st,ast.Assign) and len(st.targets)==1 and isinstance(st.targets[0],ast.Name):
            if is_ttp(st.value): env[st.targets[0].id]=mk(st.value)
            else: env[st.targets[0].id]=val(st.value)
            continue
        if isinstance(st,ast.Expr) and isinstance(st.value,ast.Call):
            c=st.value
            if isinstance(c.func,ast.Name) and c.func.id in('print','pprint.pprint'): continue
            if isinstance(c.func,ast.Attribute):
                if isinstance(c.func.value,ast.Name) and c.func.value.id in ('pprint','log','logging'): continue
                if isinstance(c.func.value,ast.Name) and isinstance(env.get(c.func.value.id),P):
                    p=env[c.func.value.id];m=c.func.attr
                    if m=='parse':
                        if p.parsed: raise Skip('reparse')
                        p.parsed=True;continue
                    if m=='add_input':
                        kw={k.arg:lit(k.value,env) for k in c.keywords}
                        for n_,a_ in zip(['data','input_name','template_name','groups'],c.args): kw[n_]=lit(a_,env)
                        if set(kw)-{'data','template_name'}: raise Skip('add_input args')
                        p.data.append(kw['data']); p.names.append(kw.get('template_name','_root_template_'))
                        continue
                    if m=='add_template':
                        if len(c.args)==1 and not c.keywords: p.tpl.append(lit(c.args[0],env)); continue
                        if not c.args and len(c.keywords)==1 and c.keywords[0].arg=='template': p.tpl.append(lit(c.keywords[0].value,env)); continue
                    raise Skip('method '+m)
            raise Skip('call '+ast.dump(c.func)[:60])
        if isinstance(st,ast.Assert):
            t=st.test
            if isinstance(t,ast.Compare) and len(t.ops)==1 and isinstance(t.ops[0],ast.Eq):
                a=val(t.left);b=val(t.comparators[0])
                if isinstance(b,tuple) and b and b[0]=='RES': a,b=b,a
                if isinstance(a,tuple) and a and a[0]=='RES':
                    out.append(dict(file=fname,test=fn.name,tpl=a[1],data=a[2],vars=a[3],k2i=a[4],structure=a[5],idx=a[6],names=a[7],base=a[8],kw=a[9],expect=repr(b))); continue
            raise Skip('assert form')
        raise Skip('stmt '+type(st).__name__)
    return out
for f in sorted(glob.glob('/repo/test/pytest/test_*.py')):
    tree=ast.parse(open(f,encoding='utf8').read())
    genv={}
    for st in tree.body:
        if isinstance(st,ast.Assign) and len(st.targets)==1 and isinstance(st.targets[0],ast.Name):
            try: genv[st.targets[0].id]=ast.literal_eval(st.value)
            except Exception: pass
    for st in tree.body:
        if isinstance(st,ast.FunctionDef) and st.name.startswith('test'):
            try:
                o=run(st,genv,os.path.basename(f))
                if not o: raise Skip('no assert')
                cases+=o
            except Skip as e: skipped[f'{os.path.basename(f)}:{st.name}']=str(e)
json.dump(cases,open('/tmp/conf/cases.json','w'))
json.dump(skipped,open('/tmp/conf/skipped.json','w'),indent=1)
print(len(cases),len(skipped))
import collections
print(collections.Counter(v[:40] for v in skipped.values()).most_common(30))
