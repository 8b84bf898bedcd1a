#!/usr/bin/env python3
"""Regenerate MANIFEST.json from rocq/theories/Properties/*.v and tools/notes.json.

A theorem belongs to property Cnn when its name starts with Cnn_.
notes.json maps a property to {"status": ..., "note": ...}.
"""
import json, os, re
root = os.path.dirname(os.path.dirname(os.path.abspath(__file__)))
theorems = {}
d = os.path.join(root, "rocq/theories/Properties")
for f in sorted(os.listdir(d)):
    if f.endswith(".v"):
        text = open(os.path.join(d, f)).read()
        for m in re.finditer(r"^Theorem ((C\d+)_\w+)", text, re.M):
            theorems.setdefault(m.group(2), []).append(
                "Verif.Properties.%s.%s" % (f[:-2], m.group(1)))
notes = json.load(open(os.path.join(root, "tools/notes.json")))
claims = []
for line in open(os.path.join(root, "properties.jsonl")):
    p = json.loads(line)["id"]
    n = notes.get(p, {})
    ths = theorems.get(p, [])
    if not ths and n.get("status") != "not_applicable":
        continue
    partial = any(t.endswith(("_partial", "_refuted")) for t in ths)
    status = n.get("status", "partial" if partial else "proved")
    claims.append({"property": p, "status": status,
                   "theorems": [t.split(".")[-1] for t in ths], "note": n.get("note", "")})
json.dump({"claims": claims}, open(os.path.join(root, "MANIFEST.json"), "w"), indent=1)
print(len(claims), "claims;", "missing:",
      [json.loads(l)["id"] for l in open(os.path.join(root, "properties.jsonl"))
       if json.loads(l)["id"] not in [c["property"] for c in claims]])
