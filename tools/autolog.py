#!/usr/bin/env python3
"""Append the systematic one-token mutants to seeded/LOG.jsonl.

usage: autolog.py RESULTS@COMMIT...

Each mutant was compiled until the first file that no longer compiled. "first" is the lemma, theorem or example at which that
happened; "failed" are theorems resting on it (the five nearest are named), found by the names in the proofs.
"""
import sys, os, re, json, glob
root = os.path.join(os.path.dirname(os.path.abspath(__file__)), "..")
uses, where = {}, {}
for p in sorted(glob.glob(os.path.join(root, "rocq/theories/*.v"))):
    s = open(p).read()
    heads = list(re.finditer(r"^\s*(?:#\[\w+\]\s*)?(Lemma|Theorem|Example|Corollary|Fact|Definition|Fixpoint|Ltac)\s+(\w+)", s, re.M))
    for i, h in enumerate(heads):
        end = heads[i + 1].start() if i + 1 < len(heads) else len(s)
        uses.setdefault(h.group(2), set()).update(re.findall(r"\w+'?", s[h.end():end]))
        where[h.group(2)] = h.group(1)
back = {}
for k, v in uses.items():
    for x in v: back.setdefault(x, set()).add(k)
def resting(name):
    """Theorems resting on a lemma, nearest first."""
    seen, level, found = {name}, [name], []
    while level:
        found += sorted(x for x in level if re.match(r"C\d\d+_", x) and where.get(x) == "Theorem")
        level = sorted({y for x in level for y in back.get(x, ())} - seen)
        seen.update(level)
    return found
notes = json.load(open(os.path.join(root, "seeded", "auto_notes.json")))
log = os.path.join(root, "seeded", "LOG.jsonl")
lines = [l for l in open(log) if not json.loads(l)["id"].startswith("A")]
n = 0; missing = []
for arg in sys.argv[1:]:
    name, commit = arg.split("@")
    for l in open(name):
        x = json.loads(l)
        if x["res"] not in ("killed", "survived"): continue  # the edited definition did not compile
        n += 1
        key = f'{x["file"]}.{x["defn"]}|{x["old"].strip()}|{x["new"].strip()}'
        d = {"id": "A%04d" % n, "model": commit, "definition": x["file"] + "." + x["defn"], "edit": "one token in: " + " ".join(x["ctx"].split()),
             "old": x["old"], "new": x["new"]}
        if x["res"] == "killed":
            first = x["by"].split(".")[1]
            r = resting(first)
            d["claim"] = ", ".join(sorted({y.split("_")[0] for y in r[:5]})) or first
            d["first"] = x["by"]; d["failed"] = r[:5]
            d["tightened"] = []; d["note"] = notes.get(key, {}).get("note", "")
            if first == "?":
                d["first"] = d["claim"] = x["by"][:-2]
                d["note"] = "The file does not compile within 300 s." if x["rc"] == 124 else "A proof of the file breaks; its name was not recorded."
            elif not r and not d["note"] and where.get(first) != "Example": missing.append((d["id"], x["by"]))
        else:
            d["claim"] = "none"; d["first"] = ""; d["failed"] = []
            k = notes.get(key, {"note": "The identity function: no change."} if x["new"].strip() == "Some (id" else {})
            d["tightened"] = k.get("tightened", []); d["note"] = k.get("note", "")
            if not d["note"]: missing.append((d["id"], key, x["ctx"]))
        lines.append(json.dumps(d, ensure_ascii=False) + "\n")
open(log, "w").writelines(lines)
print(len(lines), "lines,", n, "automatic; look at:", missing)
