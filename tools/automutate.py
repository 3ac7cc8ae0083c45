#!/usr/bin/env python3
"""Automatic mutants of the model, looking for survivors.

usage: automutate.py gen SEED PER_FILE out.json      generate mutants (token level)
       automutate.py run mutants.json out.jsonl      build each one, stop at the first broken lemma
The source tree (env MUT_SRC) should be one made by mutate.strip, without the Tests files, so that
neither examples nor tests can kill a mutant.  Work directory: env MUT_WORK."""
import json,os,random,re,shutil,subprocess,sys,time
HERE=os.path.dirname(os.path.abspath(__file__))
SRC=os.environ.get("MUT_SRC","/tmp/mutsrc"); W=os.environ.get("MUT_WORK","/tmp/mut/auto")
TH=os.path.join(HERE,"..","rocq","theories")
MODEL="Manager MinMax Sampling Rename KMeans Hierarchical Spectral Affinity Dbscan Mpckmeans Objects Json Text Frequency Factories Seeds Loop Annotator Usage Heap".split()
OPS=[(r"<\?","<=?"),(r"<=\?","<?"),(r"\bNat\.ltb\b","Nat.leb"),(r"\bNat\.leb\b","Nat.ltb"),(r"\bstr_ltb\b","str_leb"),(r"\bstr_leb\b","str_ltb"),
 (r"&&","||"),(r"\|\|","&&"),(r"\btrue\b","false"),(r"\bfalse\b","true"),(r"\bfst\b","snd"),(r"\bsnd\b","fst"),
 (r"\bMUST_LINK\b","CANNOT_LINK"),(r"\bCANNOT_LINK\b","MUST_LINK"),(r"\bt_ml\b","t_cl"),(r"\bt_cl\b","t_ml"),
 (r"\bKeyError\b","ValueError"),(r"\bValueError\b","KeyError"),(r"\bIndexError\b","KeyError"),
 (r"\bdata_ID1\b","data_ID2"),(r"\bdata_ID2\b","data_ID1"),(r"\bnegb\b","id"),(r"\brev\b","id"),
 (r"\bNat\.min\b","Nat.max"),(r"\bNat\.max\b","Nat.min"),(r"\bZ\.min\b","Z.max"),(r"\bZ\.max\b","Z.min"),(r"\bpy_min\b","py_max"),(r"\bpy_max\b","py_min"),
 (r"\bexistsb\b","forallb"),(r"\bforallb\b","existsb"),(r"\brexists\b","rforall"),(r"(?<![\w.])0(?![\w.])","1"),(r"(?<![\w.])1(?![\w.])","0"),(r"(?<![\w.])1(?![\w.])","2"),(r"(?<![\w.])2(?![\w.])","1"),(r"(?<![\w.])2(?![\w.])","3"),
 (r"(?<=\w) \+ (?=\w)"," - "),(r"(?<=\w) - (?=\w)"," + "),(r" \+\+ \[",None),(r"\bsub\b","add"),(r"\badd\b","sub"),(r"\bltb\b","(fun x y => negb (ltb x y))"),
 (r"\bi\b","j"),(r"\bj\b","i"),(r"\bNone\b",None)]
def blank(s):
    """Comments replaced by spaces."""
    out=[];d=0;i=0
    while i<len(s):
        if s.startswith("(*",i): d+=1;out.append("  ");i+=2
        elif s.startswith("*)",i) and d: d-=1;out.append("  ");i+=2
        else: out.append(s[i] if d==0 or s[i]=="\n" else " ");i+=1
    return "".join(out)
def sites(f):
    s=open(os.path.join(TH,f+".v")).read(); b=blank(s); L=[]
    defs=[(m.start(),m.group(1)) for m in re.finditer(r"^[ \t]*(?:Fixpoint|Definition)\s+(\w+)",b,re.M)]
    for k,(a,name) in enumerate(defs):
        e=defs[k+1][0] if k+1<len(defs) else len(b)
        body=re.compile(r":=").search(b,a,e)
        if not body: continue
        st=body.end()
        en=re.compile(r"\.\s*$",re.M).search(b,st,e)
        en=en.start() if en else e
        for pat,new in OPS:
            if new is None: continue
            for m in re.finditer(pat,b[st:en]):
                p=st+m.start(); q=st+m.end()
                if b[p-1:p]=="(" and b[q:q+1]==")" : pass
                L.append((name,p,q,new))
    return s,L
def gen(seed,per,out):
    rnd=random.Random(seed); res=[]
    for f in MODEL:
        s,L=sites(f); rnd.shuffle(L)
        for name,p,q,new in L[:per]:
            a=max(0,p-60); z=min(len(s),q+60)   # context long enough to be unique
            while s.count(s[a:z])!=1: a=max(0,a-40); z=min(len(s),z+40)
            res.append(dict(definition=name,file=f+".v",old=s[a:z],new=s[a:p]+new+s[q:z],claim="automatic: %s => %s"%(s[p:q],new)))
    json.dump(res,open(out,"w"),indent=1); print(len(res))
def sh(c): return subprocess.run(c,shell=True,capture_output=True,text=True)
def lemma(path,line):
    L=open(path).read().splitlines()[:line]
    for l in reversed(L):
        m=re.match(r"\s*(?:Local |Global )?(Lemma|Theorem|Example|Corollary|Instance|Fixpoint|Definition|Record|Inductive)\s+(\w+)",l)
        if m: return m.group(1),m.group(2)
    return "?","?"
def run(mut):
    if not os.path.exists(W): shutil.copytree(SRC,W,copy_function=shutil.copy2)
    sh("rsync -a --delete %s/ %s/"%(SRC,W)) if shutil.which("rsync") else (shutil.rmtree(W),shutil.copytree(SRC,W,copy_function=shutil.copy2))
    p=os.path.join(W,"theories",mut["file"]); s=open(p).read()
    if s.count(mut["old"])!=1: return {"error":"pattern occurs %d times"%s.count(mut["old"])}
    open(p,"w").write(s.replace(mut["old"],mut["new"]))
    r=sh("cd %s && timeout 3000 nice make -j2"%W); out=r.stdout+r.stderr
    errs=re.findall(r'File "\./theories/(\w+\.v)", line (\d+), characters [^\n]*\nError',out)
    if r.returncode==0: return {"status":"SURVIVED"}
    if not errs: return {"status":"unknown","out":out[-300:]}
    broken=[]
    for f,l in errs:
        kind,nm=lemma(os.path.join(W,"theories",f),int(l))
        if f==mut["file"] and kind in("Fixpoint","Definition"): return {"status":"stillborn"}
        broken.append("%s: %s"%(f,nm))
    return {"status":"killed","broken":broken}
if __name__=="__main__":
    if sys.argv[1]=="gen": gen(int(sys.argv[2]),int(sys.argv[3]),sys.argv[4])
    else:
        o=open(sys.argv[3],"a")
        for m in json.load(open(sys.argv[2])):
            t=time.time(); r=run(m); r["seconds"]=round(time.time()-t); m["result"]=r
            o.write(json.dumps(m)+"\n"); o.flush(); print(m["file"],m["definition"],m["claim"],"->",r["status"] if "status" in r else r,r.get("broken",""),r["seconds"],flush=True)
