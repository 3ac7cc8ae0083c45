#!/usr/bin/env python3
"""Generates theories/PropX.v from theories/XThms.v.

In XThms.v:  (*HEADER ... HEADER*)  imports and helper definitions for PropX.v
             (*PROP comment *)  right before  Lemma <name>_proof : <statement>. Proof.
             (*EX ... EX*)      examples placed after the theorem in PropX.v
The generated file holds only statements, `exact`, Print Assumptions and examples."""
import re,sys,glob,os
d=os.path.join(os.path.dirname(os.path.abspath(__file__)),"..","rocq","theories")
for src in sorted(glob.glob(os.path.join(d,"*Thms.v"))):
    base=os.path.basename(src)[:-len("Thms.v")]
    s=open(src).read()
    h=re.search(r"\(\*HEADER\n(.*?)HEADER\*\)",s,re.S)
    out=["(** Generated from %sThms.v by tools/gen_props.py: theorem statements,\n    each closed by the lemma of the same name proved there. *)\n"%base, h.group(1)]
    toks=re.finditer(r"\(\*PROP(.*?)\*\)\s*(?:Lemma|Theorem)\s+(\w+)_proof\b(.*?)\nProof\.|\(\*EX\n(.*?)EX\*\)",s,re.S)
    for t in toks:
        if t.group(2):
            c=t.group(1).strip()
            st=t.group(3).rstrip()
            out.append("(** %s *)\nTheorem %s%s\nProof. exact %s_proof. Qed.\nPrint Assumptions %s.\n"%(c,t.group(2),st,t.group(2),t.group(2)))
        else:
            out.append(t.group(4))
    dst=os.path.join(d,"Prop%s.v"%base)
    txt="\n".join(out)
    if not os.path.exists(dst) or open(dst).read()!=txt:
        open(dst,"w").write(txt); print("wrote",dst)
