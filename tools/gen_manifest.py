#!/usr/bin/env python3
"""Writes MANIFEST.json.  CLAIMS: id -> (status, [theorems], note)."""
import json, os, re, glob
here = os.path.dirname(os.path.abspath(__file__))
root = os.path.dirname(here)
CLAIMS = {}
def claim(cid, status, theorems, note):
    CLAIMS[cid] = (status, theorems, note)
exec(open(os.path.join(here, "claims.py")).read())
names = set()
for f in glob.glob(os.path.join(root, "rocq/theories/*.v")):
    for m in re.finditer(r"^Theorem\s+(\w+)", open(f).read(), re.M):
        names.add(m.group(1))
out, used = [], set()
for cid in sorted(CLAIMS):
    st, th, note = CLAIMS[cid]
    for t in th:
        assert t in names, (cid, t)
        used.add(t)
    out.append({"property": cid, "status": st, "theorems": th, "note": note})
for l in open(os.path.join(root, "properties.jsonl")):
    cid = json.loads(l)["id"]
    if cid not in CLAIMS:
        print("no claim for", cid)
print("theorems without a claim:", sorted(n for n in names - used if re.match(r"C\d", n)))
json.dump({"claims": out}, open(os.path.join(root, "MANIFEST.json"), "w"), indent=1)
