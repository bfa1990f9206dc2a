#!/usr/bin/env python3
"""Runs seeded wrong programs against the theorems.

usage: mutate.py mutants.py [name ...]
A mutant file defines M, a list of (name, file, definition, old, new, claim, properties).
Each is applied to a scratch copy in /tmp/mut, rebuilt with make -k, and the lemmas whose
proofs fail are traced through the .glob files to the property theorems resting on them.
One JSON line per attempt is appended to $OUT (default /tmp/mut/out.jsonl), from where it is
copied to /verif/seeded/LOG.jsonl with the theorems that were tightened in answer."""
import sys, os, re, json, subprocess, glob, time, runpy
SRC="/verif/rocq"; BASE="/tmp/mut/base"; W="/tmp/mut/w"
J=os.environ.get("J","3")
T=os.environ.get("T","") # files to rebuild, all by default
def sh(c,**k): return subprocess.run(c,shell=True,text=True,capture_output=True,**k)
KW=re.compile(r"^\s*(?:Local |Global |#\[[^\]]*\] )?(Theorem|Lemma|Example|Corollary|Fact|Remark|Definition|Fixpoint|Instance)\s+([\w']+)")
def decls(path):
    out=[]
    for n,l in enumerate(open(path),1):
        m=KW.match(l)
        if m: out.append((n,m.group(1),m.group(2)))
    return out
def graph():
    """name -> set of names it refers to, from the .glob files of BASE"""
    g={}
    for f in glob.glob(BASE+"/theories/*.glob"):
        mod=os.path.basename(f)[:-5]
        defs=[];refs=[]
        for l in open(f):
            m=re.match(r"(def|prf|thm|lem|ex|fix|inst|prfax|coe|rec|ind|scheme|cor|fact|rem)\w* (\d+):\d+ (\S+) (\S+)",l)
            if m: defs.append((int(m.group(2)),m.group(4))); continue
            m=re.match(r"R(\d+):\d+ Verif\.(\S+) (\S+) (\S+) (\S+)",l)
            if m: refs.append((int(m.group(1)),m.group(2)+"."+m.group(4)))
        defs.sort()
        import bisect
        pos=[d[0] for d in defs]
        for d in defs: g.setdefault(mod+"."+d[1],set())
        for p,r in refs:
            i=bisect.bisect_right(pos,p)-1
            if i>=0: g[mod+"."+defs[i][1]].add(r)
    return g
def dependents(g,roots):
    rev={}
    for a,bs in g.items():
        for b in bs: rev.setdefault(b,set()).add(a)
    seen=set(roots); todo=list(roots)
    while todo:
        x=todo.pop()
        for y in rev.get(x,()):
            if y not in seen: seen.add(y); todo.append(y)
    return seen
def main():
    muts=runpy.run_path(sys.argv[1])["M"]; want=sys.argv[2:]
    if not os.path.exists(BASE+"/.ok"):
        sh(f"rm -rf {BASE}; cp -a {SRC} {BASE}; cd {BASE}; coq_makefile -f _CoqProject -o Makefile; make -j4; touch .ok")
    G=graph()
    for (name,f,defn,old,new,claim,props) in muts:
        if want and name not in want: continue
        sh(f"rm -rf {W}; cp -a {BASE} {W}")
        path=f"{W}/theories/{f}.v"
        t=open(path).read()
        if t.count(old)!=1:
            print(name,"PATTERN COUNT",t.count(old),flush=True); continue
        open(path,"w").write(t.replace(old,new))
        t0=time.time()
        failed=[]; other=[]
        for rnd in range(12):
            try: r=sh(f"cd {W}; make -k -j{J} {T} 2>&1",timeout=3600); out=r.stdout
            except subprocess.TimeoutExpired: out="TIMEOUT"
            errs=[]
            for m in re.finditer(r'File "(?:\./)?theories/(\w+)\.v", line (\d+), characters [\d-]+:\n(Error[^\n]*\n?[^\n]*)',out):
                ff,ln=m.group(1),int(m.group(2))
                ds=[d for d in decls(f"{W}/theories/{ff}.v") if d[0]<=ln]
                errs.append((ff,ds[-1][2] if ds else "?",ds[-1][0] if ds else 0))
                other.append(m.group(3).strip().replace("\n"," ")[:100])
            failed+=[a+"."+b for a,b,_ in errs]
            dep=dependents(G,failed)
            thms=sorted({x.split(".")[1] for x in dep if re.match(r"Prop\w+\.C\d\d",x)})
            hit=[p for p in props if any(x.startswith(p+"_") for x in thms)]
            # the claim's own theorems were not reached: set the failing proofs aside and go on
            if not errs or hit or not props: break
            for ff,nm,ln in errs:
                p=f"{W}/theories/{ff}.v"; ls=open(p).read().split("\n")
                e=next(i for i in range(ln-1,len(ls)) if re.search(r"\b(Qed|Defined)\.",ls[i]))
                b=next((i for i in range(ln-1,e+1) if re.search(r"\bProof\b",ls[i])),None)
                if b is None: break
                pre=ls[b][:ls[b].index("Proof")]
                ls[b:e+1]=[pre+"Proof. Admitted."]
                open(p,"w").write("\n".join(ls))
        rec={"mutant":name,"definition":f"{f}.{defn}","edit":f"{old.strip()}  ==>  {new.strip()}","claim_broken":claim,
             "properties":props,"proofs_failed":failed,"theorems_failed":thms,"theorems_tightened":[]}
        with open(os.environ.get("OUT","/tmp/mut/out.jsonl"),"a") as h: h.write(json.dumps(rec)+"\n")
        print(name, "KILLED" if failed else ("TIMEOUT" if out=="TIMEOUT" else "SURVIVED"), "hit",hit,"of",props,"| failed:",failed,"| thms",len(thms),"| %ds"%(time.time()-t0),other[:2],flush=True)
main()
