#!/usr/bin/env python3
# Regenerates MANIFEST.json from the theorem names in rocq/theories/Properties*.v
# and the notes below.  A theorem C07_x belongs to property C07; a name ending
# in _partial makes the property partial.
import json,re,glob,os
root=os.path.dirname(os.path.dirname(os.path.abspath(__file__)))
notes=json.load(open(os.path.join(root,"tools/notes.json")))
T={}
for f in sorted(glob.glob(os.path.join(root,"rocq/theories/Properties*.v"))):
    for n in re.findall(r"^Theorem (C\d+_\w+)",open(f).read(),re.M):
        T.setdefault(n.split("_")[0],[]).append(n)
claims=[]
for l in open(os.path.join(root,"properties.jsonl")):
    i=json.loads(l)["id"]
    if i in T:
        st="partial" if any(n.endswith("_partial") for n in T[i]) else "proved"
        claims.append({"property":i,"status":st,"theorems":T[i],"note":notes.get(i,"")})
json.dump({"claims":claims},open(os.path.join(root,"MANIFEST.json"),"w"),indent=1)
print(len(claims),"claims",sum(len(c["theorems"]) for c in claims),"theorems")
