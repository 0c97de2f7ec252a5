import json,re,glob
T={}
for f in sorted(glob.glob('/verif/rocq/theories/Properties_*.v')):
    for m in re.finditer(r'^Theorem (C(\d\d+)_\w+)',open(f).read(),re.M):
        T.setdefault('C'+m.group(2),[]).append(m.group(1))
# status/notes
N=json.load(open('/verif/tools/notes.json'))
ids=[json.loads(l)['id'] for l in open('/verif/properties.jsonl')]
claims=[]
for i in ids:
    if i in T:
        st,note=N.get(i,["?",""])
        if st=="?":
            st="partial" if any(t.endswith(('_partial','_refuted')) for t in T[i]) else "proved"
        claims.append({"property":i,"status":st,"theorems":T[i],"note":note})
    elif i in N:
        claims.append({"property":i,"status":N[i][0],"theorems":[],"note":N[i][1]})
json.dump({"claims":claims},open('/verif/MANIFEST.json','w'),indent=1)
for c in claims: print(c["property"],c["status"],len(c["theorems"]))
print("missing:",[i for i in ids if i not in [c["property"] for c in claims]])
