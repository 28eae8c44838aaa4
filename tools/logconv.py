# mutation results -> seeded/LOG.jsonl
import json,sys
for l in open(sys.argv[1]):
    d=json.loads(l)
    print(json.dumps({"definition":d["definition"],"edit":d["edit"],"claim":d["claim"],"failed":d["failed"],"failed_dependents_not_rebuilt":d.get("not_rebuilt",[]),"tightened":d.get("tightened",[])}))
