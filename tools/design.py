"""write DESIGN.md: design_head.md + table of files + findings + status of each property"""
import json,re
V='/verif/'
head=open(V+'tools/design_head.md').read()
T=V+'rocq/theories/'
MODELS={"PyBase.v","Regex.v","Tree.v","Results.v","Parser.v","Session.v","SessionHeap.v","Workers.v","Template.v","FormRegex.v","MatchFuncs.v","GroupFuncs.v","Outputs.v","Loaders.v","Cache.v","Attributes.v","MatchVar.v","Compile.v","FuncTable.v","Xml.v","Files.v","Inputs.v","Load.v","Run.v","JsonDump.v","OutputTags.v","RunSeen.v","Ip.v","Api.v", "Uptime.v","InputLoad.v","InputLoadText.v","AddTemplate.v"}
files=[l.strip()[9:] for l in open(V+'rocq/_CoqProject') if l.startswith('theories/')]
rows=[]
for f in files:
    s=open(T+f).read()
    m=re.match(r'\s*\(\*\*(.*?)\*\)',s,re.S)
    t=' '.join(m.group(1).split()) if m else ''
    t=re.sub(r'^\* \w+:? ?','',t)
    kind='statements' if f.startswith('Properties') else 'specification' if f.startswith('Spec') else 'model' if f in MODELS else 'tests' if f.startswith('Conform') else 'proofs'  if True else ''
    rows.append((f,kind,t))
tab='| file | kind | content |\n|---|---|---|\n'
for k in ('model','specification','statements','proofs','tests'):
    for f,kd,t in rows:
        if kd==k: tab+=f"| `{f}` | {kd} | {t.replace('|','/')[:300]} |\n"
out=head.replace('MODELTABLE',tab)+open(V+'tools/findings.md').read()
how=json.load(open(V+'tools/how.json'))
notes=json.load(open(V+'tools/notes.json'))
ps=[json.loads(l) for l in open(V+'properties.jsonl') if l.strip()]
cl={c['property']:c for c in json.load(open(V+'MANIFEST.json'))['claims']}
out+='\n## Properties\n\n'
n=sum(c['status']=='proved' for c in cl.values())
out+=f'{len(ps)} properties, {n} proved as stated, {len(ps)-n} partial (a false or wider claim kept in view, with what is true of it proved).\n\n'
def rng(i):
    k=int(i[1:])
    for a,h in how:
        for r in a.split(','):
            lo,_,hi=r.partition('-')
            if int(lo)<=k<=int(hi or lo): return h
    return ''
for d in ps:
    c=cl[d['id']]
    out+=f"### {d['id']} {d['title']}  ({c['status']})\n\n{d['statement']}\n\n*Model and proof:* {rng(d['id'])}  \n*Theorems:* {', '.join('`'+t+'`' for t in c['theorems'])}\n"
    if d['id'] in notes: out+=f"\n*Missing:* {notes[d['id']]}\n"
    out+='\n'
open(V+'DESIGN.md','w').write(out)
