#!/usr/bin/env python3
"""Writes MANIFEST.json: theorem names are collected from theories/Properties*.v by their
Cnn_ prefix, status and note come from the table below."""
import json, re, glob, os
root = os.path.dirname(os.path.dirname(os.path.abspath(__file__)))
thms = {}
for f in sorted(glob.glob(root + "/rocq/theories/Properties*.v")):
    for m in re.finditer(r"^Theorem\s+((C\d\d)_\w+)", open(f).read(), re.M):
        thms.setdefault(m.group(2), []).append(m.group(1))
exec(open(root + "/tools/manifest_notes.py").read())
claims = []
for line in open(root + "/properties.jsonl"):
    pid = json.loads(line)["id"]
    st, note = NOTES.get(pid, ("partial", "Not proved yet."))
    claims.append({"property": pid, "status": st, "theorems": thms.get(pid, []), "note": note})
json.dump({"claims": claims}, open(root + "/MANIFEST.json", "w"), indent=1)
print({s: sum(c["status"] == s for c in claims) for s in ("proved", "partial", "not_applicable")})
print("no theorem:", [c["property"] for c in claims if not c["theorems"]])
