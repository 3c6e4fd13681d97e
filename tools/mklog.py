"""Assemble seeded/LOG.jsonl from the outputs of the mutation batches.

usage: mklog.py OUT...   (notes and tightened lists of the present log are kept)
"""
import json, os, sys
log = os.path.join(os.path.dirname(os.path.abspath(__file__)), "..", "seeded", "LOG.jsonl")
old = [json.loads(l) for l in open(log)] if os.path.exists(log) else []
kept = {(r["definition"], r["edit"]): r for r in old}
new = {}
for f in sys.argv[1:]:
    for l in open(f):
        r = json.loads(l)
        if r.get("error"):
            continue
        k = (r["definition"], r["edit"])
        o = kept.get(k, {})
        n = {"definition": r["definition"], "file": r["file"], "edit": r["edit"], "claim": r["claim"],
             "failed": r["failed"], "tightened": o.get("tightened", [])}
        if "note" in o:
            n["note"] = o["note"]
        new[k] = n
for k, o in kept.items():
    new.setdefault(k, o)
with open(log, "w") as h:
    for r in new.values():
        h.write(json.dumps(r) + "\n")
print(len(new), "records;", sum(not r["failed"] for r in new.values()), "without failing theorem")
