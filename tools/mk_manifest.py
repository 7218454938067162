#!/usr/bin/env python3
"""Rebuild MANIFEST.json from the theorem names in rocq/theories/Properties_*.v and the notes in tools/notes.json."""
import glob, json, os, re
root = os.path.dirname(os.path.dirname(os.path.abspath(__file__)))
thms = {}
for f in sorted(glob.glob(root + "/rocq/theories/Properties_*.v")):
    for m in re.finditer(r"^Theorem\s+((C\d\d)_\w+)", open(f).read(), re.M):
        thms.setdefault(m.group(2), []).append(m.group(1))
notes = json.load(open(root + "/tools/notes.json"))
claims = []
for line in open(root + "/properties.jsonl"):
    i = json.loads(line)["id"]
    ts = thms.get(i, [])
    n = notes.get(i, {})
    status = n.get("status") or ("partial" if (not ts or any(t.endswith(("_partial", "_refuted")) for t in ts)) else "proved")
    note = n.get("note", "" if ts else "Not yet modelled.")
    claims.append({"property": i, "status": status, "theorems": ts, "note": note})
json.dump({"claims": claims}, open(root + "/MANIFEST.json", "w"), indent=1)
print({s: sum(c["status"] == s for c in claims) for s in ("proved", "partial", "not_applicable")}, sum(len(c["theorems"]) for c in claims))
