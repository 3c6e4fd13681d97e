"""Regenerate MANIFEST.json from the theorem names in rocq/theories/P_*.v.

A property is "proved" when it has theorems and none of them is named
*_partial or *_refuted; it is "partial" otherwise.  Notes are kept in
tools/notes.json.
"""
import glob
import json
import os
import re

root = os.path.dirname(os.path.dirname(os.path.abspath(__file__)))
notes = json.load(open(os.path.join(root, "tools", "notes.json")))
ids = [json.loads(x)["id"] for x in open(os.path.join(root, "properties.jsonl"))]
theorems = {i: [] for i in ids}
for path in sorted(glob.glob(os.path.join(root, "rocq", "theories", "P_*.v"))):
    for name in re.findall(r"^Theorem (C\d+_\w+)", open(path).read(), re.M):
        theorems[name.split("_")[0]].append(name)
claims = []
for i in ids:
    names = theorems[i]
    if not names:
        continue
    partial = any(n.endswith(("_partial", "_refuted")) for n in names)
    claims.append(
        {
            "property": i,
            "status": "partial" if partial else "proved",
            "theorems": names,
            "note": notes.get(i, ""),
        }
    )
missing = [i for i in ids if not theorems[i]]
with open(os.path.join(root, "MANIFEST.json"), "w") as f:
    json.dump({"claims": claims}, f, indent=1)
    f.write("\n")
print(len(claims), "claims; missing:", " ".join(missing))
print("without note:", " ".join(c["property"] for c in claims if not c["note"]))
