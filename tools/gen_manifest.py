#!/usr/bin/env python3
"""Builds MANIFEST.json from the Prop*.v files: theorem Cnn_* belongs to property Cnn.
Status/notes for properties that are not simply 'proved' are in NOTES below."""
import json, os, re, glob
root=os.path.join(os.path.dirname(os.path.abspath(__file__)),"..")
props=[json.loads(l)["id"] for l in open(os.path.join(root,"properties.jsonl"))]
notes=json.load(open(os.path.join(root,"tools","notes.json")))
thms={}
for f in sorted(glob.glob(os.path.join(root,"rocq/theories/Prop*.v"))):
    for m in re.finditer(r"^Theorem\s+(C\d\d_\w+)", open(f).read(), re.M):
        thms.setdefault(m.group(1)[:3],[]).append(m.group(1))
claims=[]
for p in props:
    if p in thms:
        n=notes.get(p,{})
        st=n.get("status") or ("partial" if any(t.endswith(("_partial","_refuted")) for t in thms[p]) else "proved")
        claims.append(dict(property=p,status=st,theorems=thms[p],note=n.get("note","")))
    elif p in notes and notes[p].get("status")=="not_applicable":
        claims.append(dict(property=p,status="not_applicable",theorems=[],note=notes[p]["note"]))
    else: print("no theorem yet:",p)
json.dump({"claims":claims},open(os.path.join(root,"MANIFEST.json"),"w"),indent=1)
print(len(claims),"claims",sum(len(c["theorems"]) for c in claims),"theorems")
