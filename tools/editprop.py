import json,sys
p='/verif/properties.jsonl'; i,f,v=sys.argv[1:4]
L=[json.loads(l) for l in open(p)]
for d in L:
    if d['id']==i: d[f]=v
open(p,'w').write(''.join(json.dumps(d)+'\n' for d in L))
