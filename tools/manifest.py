#!/usr/bin/env python3
"""Rebuild MANIFEST.json from the theorem names Cnn_* in rocq/theories/*_props.v and tools/notes.json."""
import glob, json, os, re
root = os.path.dirname(os.path.dirname(os.path.abspath(__file__)))
notes = json.load(open(os.path.join(root, "tools/notes.json")))
thms = {}
for f in sorted(glob.glob(os.path.join(root, "rocq/theories/*_props.v"))):
    for n in re.findall(r"^Theorem\s+(C\d+_\w+)", open(f).read(), re.M):
        thms.setdefault(n.split("_")[0], []).append(n)
claims = []
for line in open(os.path.join(root, "properties.jsonl")):
    pid = json.loads(line)["id"]
    ts = thms.get(pid, [])
    note = notes.get(pid, {})
    if not ts:
        claims.append({"property": pid, "status": "partial", "theorems": [], "note": note.get("note", "not yet modelled")})
        continue
    weak = [t for t in ts if t.endswith("_partial") or t.endswith("_refuted")]
    status = note.get("status") or ("partial" if weak else "proved")
    claims.append({"property": pid, "status": status, "theorems": ts, "note": note.get("note", "")})
json.dump({"claims": claims}, open(os.path.join(root, "MANIFEST.json"), "w"), indent=1)
print(len(claims), "claims;", sum(1 for c in claims if c["theorems"]), "with theorems;",
      sum(1 for c in claims if c["status"] == "proved"), "proved")
