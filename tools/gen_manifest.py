#!/usr/bin/env python3
"""Writes MANIFEST.json: collects the theorems named Cxx_... in rocq/theories/Prop_*.v."""
import glob, json, os, re
here = os.path.dirname(os.path.abspath(__file__))
root = os.path.dirname(here)
notes = json.load(open(os.path.join(here, "notes.json")))
thms = {}
for f in sorted(glob.glob(os.path.join(root, "rocq/theories/Prop_*.v"))):
    for m in re.finditer(r"^Theorem (C\d+_?\w*)", open(f).read(), re.M):
        thms.setdefault(m.group(1).split("_")[0], []).append(m.group(1))
claims = []
for line in open(os.path.join(root, "properties.jsonl")):
    i = json.loads(line)["id"]
    ts = thms.get(i, [])
    n = notes.get(i, {})
    partial = any(t.endswith(("_partial", "_refuted")) for t in ts)
    status = n.get("status", "partial" if partial or not ts else "proved")
    claims.append({"property": i, "status": status, "theorems": ts,
                   "note": n.get("note", "" if ts else "not proved yet")})
json.dump({"claims": claims}, open(os.path.join(root, "MANIFEST.json"), "w"), indent=1)
print({s: sum(c["status"] == s for c in claims) for s in ("proved", "partial", "not_applicable")})
