#!/usr/bin/env python3
"""Append the results of mutate.py to seeded/LOG.jsonl.  usage: log_mutants.py out.jsonl"""
import json,os,sys
log=os.path.join(os.path.dirname(os.path.abspath(__file__)),"..","seeded","LOG.jsonl")
with open(log,"a") as f:
    for l in open(sys.argv[1]):
        d=json.loads(l); r=d["result"]
        if "error" in r: print("skipped:",d["definition"],r["error"]); continue
        e={"definition":d["file"]+": "+d["definition"],"edit":d["old"]+"  =>  "+d["new"],
          "claim":d["claim"],"failed":r["failed"],"tightened":d.get("tightened",[])}
        if not r["failed"] and r["not_built"]:
            e["note"]="undecided: after the lemmas "+", ".join(r["broken_lemmas"])+" broke, the rebuild ran out of time or memory before these theorems: "+", ".join(r["not_built"])
        if d.get("note"): e["note"]=d["note"]
        f.write(json.dumps(e,ensure_ascii=False)+"\n")
