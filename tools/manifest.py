#!/usr/bin/env python3
"""Regenerate MANIFEST.json from the theorems in rocq/theories/Props and tools/status.json.

status.json: {"C01": {"status": "proved", "note": "..."}}; theorems are collected by name prefix."""
import glob, json, os, re
root = os.path.dirname(os.path.dirname(os.path.abspath(__file__)))
props = [json.loads(l)["id"] for l in open(root + "/properties.jsonl")]
status = json.load(open(root + "/tools/status.json"))
thms = {}
for f in sorted(glob.glob(root + "/rocq/theories/Props/*.v")):
    for m in re.finditer(r"^Theorem (C\d\d+)_(\w+)", open(f).read(), re.M):
        thms.setdefault(m[1], []).append(m[1] + "_" + m[2])
claims = []
for p in props:
    s = status.get(p, {"status": "partial", "note": "not yet proved"})
    claims.append({"property": p, "status": s["status"], "theorems": thms.get(p, []), "note": s.get("note", "")})
    if s["status"] == "proved" and not thms.get(p):
        print("WARNING: no theorem for", p)
    if thms.get(p) and p not in status:
        print("WARNING: theorems without status for", p)
json.dump({"claims": claims}, open(root + "/MANIFEST.json", "w"), indent=1)
open(root + "/MANIFEST.json", "a").write("\n")
print({k: sum(c["status"] == k for c in claims) for k in ("proved", "partial", "not_applicable")})
