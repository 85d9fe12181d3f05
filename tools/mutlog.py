#!/usr/bin/env python3
"""Write seeded/LOG.jsonl from the results of tools/mutate.py and the notes of seeded/notes.py.

usage: mutlog.py RESULTS@COMMIT...   (COMMIT: the model that was edited; later results of a mutant make further lines)
"""
import sys, os, json
root = os.path.join(os.path.dirname(os.path.abspath(__file__)), "..")
sys.path.insert(0, os.path.join(root, "seeded"))
from mutations import mutations
from notes import notes
labels = {m["id"]: m for m in mutations}
lines = []
for arg in sys.argv[1:]:
    name, commit = arg.split("@")
    for l in open(name):
        x = json.loads(l)
        if "failed" not in x: continue  # the edit did not apply
        m = labels[x["id"]]
        n = notes.get(x["id"], {})
        lines.append({"id": x["id"], "model": commit, "definition": m["file"] + "." + m["def"], "edit": m["edit"], "old": m["old"], "new": m["new"],
                      "claim": m["breaks"], "failed": x["failed"], "failed_examples": x["examples"], "failed_unit_tests": x["unit_tests"],
                      "tightened": n.get("tightened", []), "note": n.get("note", "")})
with open(os.path.join(root, "seeded", "LOG.jsonl"), "w") as f:
    for l in lines: f.write(json.dumps(l, ensure_ascii=False) + "\n")
print(len(lines), "lines;", sum(1 for l in lines if not l["failed"]), "without failed theorem:", [l["id"] for l in lines if not l["failed"]])
print("no failed example and no note:", [l["id"] for l in lines if l["failed"] and not l["failed_examples"] and not l["note"]])
