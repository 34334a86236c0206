"""write rocq/theories/Conformance*.v: the project's own tests (test/pytest) whose template, data and expected result
are literals, replayed in the model.  Usage: conform_extract.py (writes /tmp/conf/cases.json), run.py there (writes res.json), then this."""
import json,sys,re
sys.argv=sys.argv[:1]
src=open('/tmp/conf/run.py').read()
src=src[:src.index("def one(i):")]
exec(src)
res={r[0]:r for r in json.load(open('/tmp/conf/res.json'))}
ok=[i for i in sorted(res) if res[i][1]=='ok']
N=2
HEAD='''(** * Conformance%s: the project's own tests, run by the model.
    Each example takes template, data and expected result from a test in /repo/test/pytest (generated by
    tools/conform.py) and checks that the model of the complete program (Run.v) computes this result.  These are tests of the
    model, not proofs about it. *)
From Verif Require Import PyBase Regex Results Template Attributes FormRegex MatchVar MatchFuncs GroupFuncs Parser Compile FuncTable Session Files Inputs Load Run.
Local Open Scope string_scope.
Local Open Scope list_scope.
Definition is_ (r : res val) (v : val) : bool := match r with Ok x => py_eq x v | Raise _ => false end.
(** [result[i][j]...] *)
Fixpoint at_ (p : list nat) (r : res val) : res val :=
  match p with [] => r | i :: t => at_ t (do v <- r; match v with VList l => match nth_error l i with Some x => Ok x | None => Raise IndexError end | _ => Raise TypeError end) end.
'''
def wname(i): return 'w%d'%i
chunks=[ok[k::N] for k in range(N)]
for k,ch in enumerate(chunks):
    out=[HEAD%(k+1)]
    names={}
    for i in sorted(ch):
        c=cases[i]; call,expect=gen(i,c)
        n=re.sub(r'\W','_',c['file'][5:-3]+'_'+c['test'][5:])
        names[n]=names.get(n,0)+1
        if names[n]>1: n+='_%d'%names[n]
        if any(not isinstance(x,int) for x in c['idx']): continue
        if len(call)>60000: continue
        out.append('(** test/pytest/%s %s *)\nExample %s : is_ (at_ [%s] (%s)) (%s) = true.\nProof. vm_compute. reflexivity. Qed.\n'%(c['file'],c['test'],n,'; '.join(map(str,c['idx'])),call,cv(expect)))
    open('/verif/rocq/theories/Conformance%d.v'%(k+1),'w').write('\n'.join(out))
