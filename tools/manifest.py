#!/usr/bin/env python3
"""Regenerate MANIFEST.json from the theorem names in rocq/theories/Props_*.v.

A theorem is called Cnn_something; the claim of property Cnn lists all of them.
Notes and statuses that cannot be derived from the names are in NOTES below.
"""
import glob, json, os, re

ROOT = os.path.dirname(os.path.dirname(os.path.abspath(__file__)))
NOTES = json.load(open(os.path.join(ROOT, "tools", "notes.json")))

theorems = {}
for path in sorted(glob.glob(os.path.join(ROOT, "rocq/theories/Props_*.v"))):
    for name in re.findall(r"^Theorem\s+(C\d\d+_\w+)", open(path).read(), re.M):
        theorems.setdefault(name.split("_")[0], []).append(name)

claims = []
for line in open(os.path.join(ROOT, "properties.jsonl")):
    pid = json.loads(line)["id"]
    note = NOTES.get(pid, {})
    names = theorems.get(pid, [])
    if note.get("status"):
        status = note["status"]
    elif not names:
        continue
    elif any(n.endswith("_partial") for n in names):
        status = "partial"
    else:
        status = "proved"
    claims.append({"property": pid, "status": status, "theorems": names,
                   "note": note.get("note", "")})
json.dump({"claims": claims}, open(os.path.join(ROOT, "MANIFEST.json"), "w"), indent=1)
print(len(claims), "claims")
