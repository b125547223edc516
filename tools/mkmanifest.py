#!/usr/bin/env python3
"""Writes MANIFEST.json from the table below, checking that every theorem exists."""
import json, os, re, sys
root = os.path.join(os.path.dirname(__file__), "..")
C = {}
def claim(pid, status, theorems, note):
    C[pid] = dict(property=pid, status=status, theorems=theorems.split(), note=note)

exec(open(os.path.join(root, "tools", "claims.py")).read())

have = set()
d = os.path.join(root, "rocq", "theories")
for f in os.listdir(d):
    if f.endswith(".v"):
        have |= set(re.findall(r"^(?:Theorem|Lemma|Corollary)\s+([\w']+)", open(os.path.join(d, f)).read(), re.M))
bad = [t for c in C.values() for t in c["theorems"] if t not in have]
if bad:
    sys.exit("missing theorems: %s" % bad)
json.dump({"claims": [C[k] for k in sorted(C)]}, open(os.path.join(root, "MANIFEST.json"), "w"), indent=1)
print(len(C), "claims")
listed = {t for c in C.values() for t in c["theorems"]}
print("unlisted:", sorted(t for t in have if re.match(r"C\d\d_", t) and t not in listed))
