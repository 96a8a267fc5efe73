#!/usr/bin/env python3
"""Writes /verif/MANIFEST.json. Properties without an entry are 'partial' with no theorem yet."""
import json, os
HERE = os.path.dirname(os.path.abspath(__file__))
C = {}
def claim(p, status, theorems, note=""):
    C[p] = {"property": p, "status": status, "theorems": theorems, "note": note}

exec(open(os.path.join(HERE, "claims.py")).read())

props = [json.loads(l)["id"] for l in open(os.path.join(HERE, "..", "properties.jsonl"))]
out = {"claims": [C.get(p, {"property": p, "status": "partial", "theorems": [], "note": "not proved yet"}) for p in props]}
json.dump(out, open(os.path.join(HERE, "..", "MANIFEST.json"), "w"), indent=1)
print(len(C), "of", len(props))
