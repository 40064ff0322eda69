#!/usr/bin/env python3
"""Regenerates MANIFEST.json from tools/claims.txt.

claims.txt: one block per property, separated by blank lines:
  C01 proved
  theorem names separated by spaces (may span several lines starting with two spaces)
  note: text
"""
import json, os, re
here = os.path.dirname(os.path.abspath(__file__))
claims = []
for block in re.split(r"\n\s*\n", open(os.path.join(here, "claims.txt")).read().strip()):
    lines = [l for l in block.split("\n") if not l.startswith("%")]
    if not lines:
        continue
    pid, status = lines[0].split()
    theorems, note = [], ""
    for l in lines[1:]:
        if l.startswith("note:"):
            note = l[5:].strip()
        else:
            theorems += l.split()
    claims.append({"property": pid, "status": status, "theorems": theorems, "note": note})
with open(os.path.join(here, "..", "MANIFEST.json"), "w") as f:
    json.dump({"claims": claims}, f, indent=1)
    f.write("\n")
