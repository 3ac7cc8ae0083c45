#!/usr/bin/env python3
"""Writes MANIFEST.json: theorems are collected from rocq/theories/Prop*.v by the
Cnn_ prefix of their names; status and note come from the table below."""
import re,glob,json,os
root=os.path.join(os.path.dirname(os.path.abspath(__file__)),"..")
thms={}
for f in sorted(glob.glob(os.path.join(root,"rocq/theories/Prop*.v"))):
    for m in re.finditer(r"^Theorem\s+((C\d\d+)_\w+)",open(f).read(),re.M):
        thms.setdefault(m.group(2),[]).append(m.group(1))
props=[json.loads(l)["id"] for l in open(os.path.join(root,"properties.jsonl")) if l.strip()]
exec(open(os.path.join(root,"tools/manifest_notes.py")).read())
claims=[]
for p in props:
    t=thms.get(p,[])
    status,note=NOTES.get(p,(None,None))
    if status is None:
        status="proved" if t and not any(x.endswith(("_partial","_refuted")) for x in t) else "partial"
        note="" if t else "Not yet covered by a theorem."
    claims.append({"property":p,"status":status,"theorems":t,"note":note})
json.dump({"claims":claims},open(os.path.join(root,"MANIFEST.json"),"w"),indent=1)
print(len(claims),sum(c["status"]=="proved" for c in claims),[c["property"] for c in claims if not c["theorems"]])
