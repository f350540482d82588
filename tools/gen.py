#!/usr/bin/env python3
"""Generate properties.jsonl and MANIFEST.json from tools/props.py, tools/status.py
and the theorem names found in rocq/theories/Props/*.v."""
import glob, json, os, re, sys
here = os.path.dirname(os.path.abspath(__file__))
sys.path.insert(0, here)
from props import PROPS
from status import STATUS
root = os.path.dirname(here)
thms = {}
for f in sorted(glob.glob(os.path.join(root, "rocq/theories/Props/*.v"))):
    for m in re.finditer(r"^Theorem\s+((C\d+)_\w+)", open(f).read(), re.M):
        thms.setdefault(m.group(2), []).append(m.group(1))
with open(os.path.join(root, "properties.jsonl"), "w") as f:
    for p in PROPS:
        f.write(json.dumps({k: p[k] for k in ("id", "title", "statement", "quantifier", "why_tests_cant", "anchors")}) + "\n")
claims = []
for p in PROPS:
    if p["id"] in STATUS:
        st, note = STATUS[p["id"]]
        t = thms.get(p["id"], [])
        if not t and st != "not_applicable":
            print("WARNING: no theorem for", p["id"])
        claims.append(dict(property=p["id"], status=st, theorems=t, note=note))
for k in thms:
    if k not in STATUS:
        print("WARNING: theorems without status:", k)
with open(os.path.join(root, "MANIFEST.json"), "w") as f:
    json.dump({"claims": claims}, f, indent=1)
    f.write("\n")
print(len(PROPS), "properties,", len(claims), "claims,", sum(len(c["theorems"]) for c in claims), "theorems")
