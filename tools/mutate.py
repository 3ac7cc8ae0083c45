#!/usr/bin/env python3
"""Mutation tests of the theorems, in a scratch copy (/tmp/mut/work).

usage: mutate.py mutants.json [out.jsonl]
mutants.json: list of {"definition","file","old","new","claim"}.
Each mutant edits the model; the build is repeated, lemmas whose proof breaks are admitted
(in the scratch copy only) and the Print Assumptions of the Prop files then tell which
theorems rest on a broken lemma."""
import json,re,subprocess,shutil,os,sys,time
SRC=os.environ.get("MUT_SRC","/verif/rocq"); W=os.environ.get("MUT_WORK","/tmp/mut/work")
def sh(c,**k): return subprocess.run(c,shell=True,capture_output=True,text=True,**k)
def prep():
    shutil.rmtree(W,ignore_errors=True); shutil.copytree(SRC,W,copy_function=shutil.copy2)
    for f in os.listdir(W+"/theories"):   # concrete examples are not what is tested here
        if f.startswith("Prop") and f.endswith(".v"):
            q=W+"/theories/"+f; s=open(q).read(); t=re.sub(r"^Example .*?\bQed\.\s*$","",s,flags=re.M|re.S)
            if t!=s: open(q,"w").write(t)
    sh("cd %s && coq_makefile -f _CoqProject -o Makefile"%W)
def strip(d):
    """Remove the examples of a source tree and build it, so that prep() has nothing to do."""
    global W
    W=d; prep(); sh("cd %s && make -j3"%d)
def admit(path,line):
    """Admit the lemma enclosing the given line. Returns its name or None."""
    s=open(path).read(); off=sum(len(l) for l in s.splitlines(True)[:line-1])
    eol=s.find("\n",off); eol=len(s) if eol<0 else eol
    ms=[m for m in re.finditer(r"^[ \t]*(?:Local |Global )?(Lemma|Theorem|Example|Corollary|Fact|Remark|Instance|Fixpoint|Definition|Record|Inductive)\s+(\w+)",s,re.M) if m.start()<=eol]
    if not ms: return None
    m=ms[-1]
    if m.group(1) in("Fixpoint","Definition","Record","Inductive"): return None
    p=re.compile(r"\bProof\b[^.]*\.").search(s,m.start())
    a=re.compile(r"\bAdmitted\.").search(s,m.start())
    if a and (not p or a.start()<p.start()):   # the statement itself no longer makes sense: remove it
        open(path,"w").write(s[:m.start()]+s[a.end():]); return m.group(2)+" (statement)"
    if not p: return None
    q=re.compile(r"\b(Qed|Defined)\s*\.").search(s,p.end())
    if not q or p.start()>eol and False: return None
    if off<m.start(): return None
    s=s[:p.start()]+"Admitted."+s[q.end():]
    open(path,"w").write(s); return m.group(2)
def run(mut):
    prep(); t0=time.time()
    p=os.path.join(W,"theories",mut["file"]); s=open(p).read()
    n=s.count(mut["old"])
    if n!=1: return {"error":"pattern occurs %d times"%n}
    open(p,"w").write(s.replace(mut["old"],mut["new"]))
    broken=[]; stuck=[]
    for it in range(120):
        r=sh("cd %s && timeout 1800 nice make -k -j2"%W)
        out=r.stdout+r.stderr
        errs=re.findall(r'File "\./theories/(\w+\.v)", line (\d+), characters [^\n]*\nError',out)
        if not errs: 
            if r.returncode!=0 and not stuck: stuck.append(out[-300:])
            break
        prog=False
        for f,l in dict.fromkeys(errs):
            if f in stuck: continue
            nm=admit(os.path.join(W,"theories",f),int(l))
            if nm: broken.append(nm); prog=True
            else: stuck.append(f)
        if not prog: break
    failed=[]; notbuilt=[]
    for f in sorted(os.listdir(W+"/theories")):
        if f.startswith("Prop") and f.endswith(".v"):
            vo=W+"/theories/"+f+"o"
            if os.path.exists(vo) and os.path.getmtime(vo)<t0: continue   # not affected
            names=re.findall(r"^Print Assumptions (\w+)\.",open(W+"/theories/"+f).read(),re.M)
            r=sh("cd %s && coqc -Q theories Verif theories/%s"%(W,f))
            parts=re.findall(r"^(Closed under the global context|Axioms:)",r.stdout,re.M)
            for i,nm in enumerate(names):
                if i>=len(parts): notbuilt.append(nm)
                elif parts[i]!="Closed under the global context": failed.append(nm)
    return {"broken_lemmas":broken,"stuck":stuck,"failed":failed,"not_built":notbuilt}
if __name__=="__main__":
    muts=json.load(open(sys.argv[1])); out=open(sys.argv[2] if len(sys.argv)>2 else "/tmp/mut/out.jsonl","a")
    for m in muts:
        r=run(m); m2=dict(m); m2["result"]=r
        out.write(json.dumps(m2)+"\n"); out.flush()
        print(m["definition"],"|",m["new"].replace("\n"," ")[:70],"->",("SURVIVED" if not r.get("broken_lemmas") and not r.get("stuck") and not r.get("error") else r if r.get("error") else "failed=%s notbuilt=%s broken=%s stuck=%s"%(r["failed"],r["not_built"],r["broken_lemmas"][:6],r["stuck"])),flush=True)
