import json,sys
p='/verif/properties.jsonl'
have={json.loads(l)['id'] for l in open(p)}
new=json.load(sys.stdin)
with open(p,'a') as f:
    for d in new:
        assert set(d)=={'id','title','statement','quantifier','why_tests_cant','anchors'},d
        if d['id'] in have: raise SystemExit('dup '+d['id'])
        f.write(json.dumps(d)+'\n')
