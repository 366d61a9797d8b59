#!/usr/bin/env python3
"""Mutation testing of the theorems.
usage: mutate.py MUTANTS.json OUT.jsonl [WORKDIR]
Each mutant: {"file","old","new","definition","edit","claim"(property id or text)}.
The model is edited in a scratch copy and rebuilt; every lemma whose proof breaks is admitted there
and the build goes on, so that Print Assumptions tells exactly which property theorems depend on a
broken proof."""
import sys,os,re,json,subprocess,shutil
src="/verif/rocq"
muts=json.load(open(sys.argv[1])); out=sys.argv[2]; W=sys.argv[3] if len(sys.argv)>3 else "/tmp/mut"
HEAD=re.compile(r"^(?:Local |Global )?(Lemma|Theorem|Example|Corollary|Fact|Remark|Instance)\s+(\S+)")
def sh(c,t=3600): return subprocess.run(c,shell=True,stdout=subprocess.PIPE,stderr=subprocess.STDOUT,text=True,timeout=t).stdout
def admit(path,line):
    L=open(path).read().split("\n"); i=line-1
    while i>=0 and not HEAD.match(L[i]): i-=1
    if i<0: return None
    name=HEAD.match(L[i]).group(2).rstrip(":")
    j=i
    while j<len(L) and not re.search(r"\bProof\b\.",L[j]): j+=1
    if j>=len(L) or j>line-1+0 and line-1<j: return None
    k=j
    while k<len(L) and not re.search(r"\b(Qed|Defined)\.",L[k]): k+=1
    if k>=len(L): return None
    pre=L[j][:re.search(r"\bProof\b\.",L[j]).start()]; post=L[k][re.search(r"\b(Qed|Defined)\.",L[k]).end():]
    L[j:k+1]=[pre+"Proof. Admitted."+post]
    open(path,"w").write("\n".join(L)); return name
def run(m):
    sh(f"rm -rf {W} && cp -a {src} {W}")
    p=f"{W}/theories/{m['file']}"; s=open(p).read()
    if s.count(m["old"])!=1: return {"error":"pattern occurs %d times"%s.count(m["old"])}
    open(p,"w").write(s.replace(m["old"],m["new"]))
    broken=[]; note=None
    for it in range(60):
        o=sh(f"cd {W} && make -j2 -k COQEXTRAFLAGS='-set \"Default Timeout=100\"' 2>&1")
        # (Default Timeout turns a diverging proof into a located error)
        errs={}
        for f,l in re.findall(r'File "\./theories/(\w+\.v)", line (\d+), characters [^\n]*\n(?:Error)',o): errs.setdefault(f,int(l))
        if not errs:
            if "Error" in o: note="build failed: "+o[-300:]
            break
        ok=True
        for f,l in errs.items():
            n=admit(f"{W}/theories/{f}",l)
            if n is None: ok=False; note=f"not a proof: {f}:{l}"
            else: broken.append(f"{f[:-2]}.{n}")
        if not ok: break
    th=[]
    names=set(b.split(".")[1] for b in broken)
    for f in sorted(os.listdir(f"{W}/theories")):
        if not re.match(r"Prop[A-Z]\w*\.v$",f) or f.startswith("Propagation"): continue
        vo=f"{W}/theories/{f}o"
        if not os.path.exists(vo): th.append(f[:-2]+" (not built)"); continue
        if os.path.exists(f"{src}/theories/{f}o") and os.path.getmtime(vo)==os.path.getmtime(f"{src}/theories/{f}o"): continue
        o=sh(f"cd {W}/theories && coqc -Q . Verif {f}")
        ths=re.findall(r"^Print Assumptions (\S+)\.",open(f"{W}/theories/{f}").read(),re.M)
        blocks=re.split(r"^(?=Axioms:|Closed under)",o,flags=re.M)[1:]
        for t,b in zip(ths,blocks):
            ax=set(re.findall(r"^([\w.']+)\s*:",b,re.M))
            if t in names or any(a.split(".")[-1] in names for a in ax): th.append(t)
    return {"broken_proofs":broken[:12],"n_broken":len(broken),"theorems_failed":th,"note":note}
for m in muts:
    r=run(m); rec={k:m[k] for k in("definition","edit","claim")}; rec.update(r)
    open(out,"a").write(json.dumps(rec)+"\n"); print(json.dumps(rec),flush=True)
