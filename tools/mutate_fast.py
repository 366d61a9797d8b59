#!/usr/bin/env python3
"""Fast mutation testing: like mutate.py, but one build round per mutant.
usage: mutate_fast.py MUTANTS.json OUT.jsonl [WORKDIR]
The model is edited in a scratch copy and rebuilt with make -k.  The proofs that break are recorded;
theorems_failed lists the property theorems whose proofs use a broken proof, directly or not
(textual dependency graph over the lemmas)."""
import sys,os,re,json,subprocess,collections
src="/verif/rocq"
muts=json.load(open(sys.argv[1])); out=sys.argv[2]; W=sys.argv[3] if len(sys.argv)>3 else "/tmp/mutf"
J=os.environ.get("J","2"); KEEP=os.environ.get("K","-k")
HEAD=re.compile(r"^(?:Local |Global |#\[\w+\] )?(Lemma|Theorem|Example|Corollary|Fact|Remark|Instance|Definition|Fixpoint|Ltac)\s+([\w']+)",re.M)
def sh(c,t=3600): return subprocess.run(c,shell=True,stdout=subprocess.PIPE,stderr=subprocess.STDOUT,text=True,timeout=t).stdout
use=collections.defaultdict(set); props=[]
bodies=[]
for f in sorted(os.listdir(src+"/theories")):
    if not f.endswith(".v"): continue
    s=open(f"{src}/theories/{f}").read(); ms=list(HEAD.finditer(s))
    for a,b in zip(ms,ms[1:]+[None]):
        body=s[a.end():b.start() if b else len(s)]
        bodies.append((f,a.group(1),a.group(2),set(re.findall(r"[\w']+",body))))
        if f.startswith("Prop") and a.group(1)=="Theorem": props.append(a.group(2))
lem={n for (_,k,n,_) in bodies if k in("Lemma","Theorem","Corollary","Fact","Remark","Example","Ltac")}
for f,k,n,ws in bodies:
    if k in("Definition","Fixpoint"): continue
    for w in ws&lem:
        if w!=n: use[w].add(n)
def users(ns):
    seen=set(ns); st=list(ns)
    while st:
        for u in use[st.pop()]:
            if u not in seen: seen.add(u); st.append(u)
    return [p for p in props if p in seen]
def at(f,line):
    L=open(f"{W}/theories/{f}").read().split("\n"); i=line-1
    while i>=0 and not HEAD.match(L[i]): i-=1
    return HEAD.match(L[i]).group(2) if i>=0 else "?"
sh(f"mkdir -p {W} && rsync -a --delete {src}/ {W}/ || (rm -rf {W} && cp -a {src} {W})")
def run(m):
    sh(f"rm -rf {W} && cp -a {src} {W}")
    p=f"{W}/theories/{m['file']}"; s=open(p).read()
    if s.count(m["old"])!=1: return {"error":"pattern occurs %d times"%s.count(m["old"])}
    open(p,"w").write(s.replace(m["old"],m["new"]))
    o=sh(f"cd {W} && make -j{J} {KEEP} COQEXTRAFLAGS='-set \"Default Timeout=100\"' 2>&1")
    errs=re.findall(r'File "\./theories/(\w+\.v)", line (\d+), characters [^\n]*\n(?:Error)',o)
    broken=sorted({f"{f[:-2]}.{at(f,int(l))}" for f,l in errs}); note=None
    if not errs and "Error" in o: note="build failed: "+o[-300:]
    return {"broken_proofs":broken[:12],"theorems_failed":users([b.split(".")[1] for b in broken]),"note":note}
for m in muts:
    r=run(m); rec={k:m[k] for k in("definition","edit","claim")}; rec.update(r)
    open(out,"a").write(json.dumps(rec)+"\n"); print(json.dumps(rec)[:400],flush=True)
