# builds MANIFEST.json: claims dict edited here
import json,re,sys,glob
exec(open('/verif/tools/claims.py').read())
thms=set()
for f in glob.glob('/verif/rocq/theories/*.v'):
    for m in re.finditer(r'^\s*(?:Theorem|Lemma|Corollary)\s+([\w\']+)',open(f).read(),re.M): thms.add(m.group(1))
ids=[json.loads(l)['id'] for l in open('/verif/properties.jsonl')]
out=[]
for i in ids:
    if i not in C: continue
    st,ts,note=C[i]
    for t in ts:
        if t not in thms: print('MISSING',i,t)
    out.append({"property":i,"status":st,"theorems":ts,"note":note})
print('unlisted',[i for i in ids if i not in C])
json.dump({"claims":out},open('/verif/MANIFEST.json','w'),indent=1)
