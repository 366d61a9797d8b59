#!/usr/bin/env python3
"""append mutate.py results to seeded/LOG.jsonl: addlog.py OUT.jsonl"""
import sys,json
with open('/verif/seeded/LOG.jsonl','a') as f:
    for l in open(sys.argv[1]):
        d=json.loads(l)
        if d.get('error'): print('skip',d); continue
        f.write(json.dumps({"definition":d["definition"],"edit":d["edit"],"claim":d["claim"],"theorems_failed":d["theorems_failed"],"broken_proofs":d["broken_proofs"],"theorems_tightened":d.get("tightened",[])})+"\n")
