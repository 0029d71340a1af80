#!/usr/bin/env python3
# Appends (or replaces) one property: addprop.py < object.json
import json,sys,os
root=os.path.dirname(os.path.dirname(os.path.abspath(__file__)))
f=os.path.join(root,"properties.jsonl")
new=json.load(sys.stdin)
new=new if isinstance(new,list) else [new]
L=[json.loads(l) for l in open(f) if l.strip()]
for d in new:
    L=[x for x in L if x["id"]!=d["id"]]+[d]
L.sort(key=lambda d:int(d["id"][1:]))
open(f,"w").write("".join(json.dumps(d,ensure_ascii=False)+"\n" for d in L))
