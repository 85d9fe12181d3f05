#!/usr/bin/env python3
"""Run the theorems against wrong programs.

Each mutation of seeded/mutations.py edits one definition of the model in a scratch copy of
rocq/theories (outside the repository). Every file that depends on it is recompiled; a proof that
no longer goes through is replaced by Admitted, in the scratch copy only, so that all further
failures show up too. A theorem counts as failed if its own proof breaks or if it rests on a lemma
whose proof broke (seen by its Print Assumptions). One JSON line per mutation goes to the file
given by --out.

usage: mutate.py [--out FILE] [--jobs N] [--only ID,ID,...]
"""
import sys, os, re, json, subprocess, shutil, argparse
from concurrent.futures import ThreadPoolExecutor
root = os.path.join(os.path.dirname(os.path.abspath(__file__)), "..")
sys.path.insert(0, os.path.join(root, "seeded"))
src = os.path.join(root, "rocq", "theories")
scratch = "/tmp/mut"
files = [l.strip()[len("theories/"):-2] for l in open(os.path.join(root, "rocq", "_CoqProject")) if l.strip().endswith(".v")]
deps = {}
for f in files:
    ds = set()
    for m in re.finditer(r"From Verif Require (?:Import|Export)?([^.]*)\.", open(f"{src}/{f}.v").read()):
        ds |= {w for w in m.group(1).split() if w in files}
    deps[f] = ds
order, seen = [], set()
def visit(f):
    if f in seen: return
    seen.add(f)
    for d in sorted(deps[f]): visit(d)
    order.append(f)
for f in files: visit(f)
def downstream(f):
    out = {f}
    for g in order:
        if deps[g] & out: out.add(g)
    return [g for g in order if g in out]

HEAD = re.compile(r"^\s*(?:#\[[^\]]*\]\s*)?(Lemma|Theorem|Example|Corollary|Fact|Remark)\s+([A-Za-z0-9_']+)")
ANY = re.compile(r"^\s*(?:#\[[^\]]*\]\s*)?(Lemma|Theorem|Example|Corollary|Fact|Remark|Definition|Fixpoint|Inductive|Record|Instance|Ltac|Notation|Print|Section|End|Import|From)\b")
def admit(text, line):
    """Admit the statement whose proof contains the given line; returns (new text, name) or None."""
    lines = text.split("\n")
    k = line - 1
    while k >= 0 and not ANY.match(lines[k]): k -= 1
    if k < 0: return None
    m = HEAD.match(lines[k])
    if not m: return None
    j = k
    while "Proof." not in lines[j]: j += 1
    e = j
    while not re.search(r"\b(Qed|Defined)\.\s*$", lines[e]): e += 1
    if line - 1 < j: return None
    head, tail = lines[j].split("Proof.", 1)
    new = lines[:j] + [head + "Admitted." ] + [""] * (e - j) + lines[e + 1:]
    return "\n".join(new), m.group(2)

def coqc(d, f, limit):
    try:
        p = subprocess.run(["coqc", "-Q", "theories", "Verif", f"theories/{f}.v"], cwd=d, capture_output=True, text=True, timeout=limit)
        return p.returncode, p.stdout, p.stderr
    except subprocess.TimeoutExpired:
        return None, "", ""
def slow_line(d, f, limit):
    """The line of the sentence that takes too long."""
    p = subprocess.Popen(["timeout", str(limit), "coqc", "-time", "-Q", "theories", "Verif", f"theories/{f}.v"], cwd=d, stdout=subprocess.PIPE, stderr=subprocess.STDOUT, text=True)
    out, _ = p.communicate()
    last = 0
    for m in re.finditer(r"^Chars (\d+) - (\d+)", out, re.M): last = int(m.group(2))
    data = open(f"{d}/theories/{f}.v", "rb").read()
    return data[:last].count(b"\n") + 2

def run(mu):
    d = f"{scratch}/{mu['id']}"
    shutil.rmtree(d, ignore_errors=True)
    os.makedirs(d + "/theories")
    down = downstream(mu["file"])
    for f in files:
        shutil.copy(f"{src}/{f}.v", f"{d}/theories/{f}.v")
        if f not in down: os.link(f"{src}/{f}.vo", f"{d}/theories/{f}.vo") if os.stat(src).st_dev == os.stat(d).st_dev else shutil.copy(f"{src}/{f}.vo", f"{d}/theories/{f}.vo")
    p = f"{d}/theories/{mu['file']}.v"
    t = open(p).read()
    if t.count(mu["old"]) < 1: return {"id": mu["id"], "error": "edit does not apply"}
    if t.count(mu["old"]) > 1 and not mu.get("all"): return {"id": mu["id"], "error": "edit is ambiguous"}
    open(p, "w").write(t.replace(mu["old"], mu["new"]))
    broken, failed, examples, errors, tests = [], [], [], [], []
    for f in down:
        for _ in range(60):
            rc, out, err = coqc(d, f, 400)
            if rc == 0: break
            if rc is None: line = slow_line(d, f, 400)
            else:
                m = re.search(r'line (\d+), characters', err)
                line = int(m.group(1)) if m else None
            path = f"{d}/theories/{f}.v"
            r = admit(open(path).read(), line) if line else None
            if r is None:
                errors.append(f"{f}:{line}: {err[:300]}")
                break
            open(path, "w").write(r[0])
            broken.append(f"{f}.{r[1]}")
        else: errors.append(f"{f}: too many failures")
        if errors: break
        if f.startswith("Props"):
            names = re.findall(r"^Print Assumptions ([A-Za-z0-9_']+)\.", open(f"{d}/theories/{f}.v").read(), re.M)
            blocks = re.findall(r"^(Closed under the global context|Axioms:)", out, re.M)
            if len(names) != len(blocks): errors.append(f"{f}: {len(names)} theorems, {len(blocks)} answers")
            failed += [n for n, b in zip(names, blocks) if b == "Axioms:"]
            examples += [b.split(".")[1] for b in broken if b.startswith(f + ".") and b.split(".")[1] not in names and ("example" in b)]
        if f == "ModelTests": tests = [b.split(".")[1] for b in broken if b.startswith("ModelTests.")]
    shutil.rmtree(d, ignore_errors=True)
    return {"id": mu["id"], "definition": mu["file"] + "." + mu["def"], "edit": mu["edit"], "breaks": mu["breaks"],
            "failed": failed, "examples": examples, "unit_tests": tests, "broken_lemmas": broken, "errors": errors}

if __name__ == "__main__":
    ap = argparse.ArgumentParser()
    ap.add_argument("--out", default="/tmp/mut/out.jsonl"); ap.add_argument("--jobs", type=int, default=3); ap.add_argument("--only", default="")
    a = ap.parse_args()
    from mutations import mutations
    todo = [m for m in mutations if not a.only or m["id"] in a.only.split(",")]
    done = set()
    if os.path.exists(a.out): done = {json.loads(l)["id"] for l in open(a.out)}
    with ThreadPoolExecutor(a.jobs) as ex:
        for r in ex.map(run, [m for m in todo if m["id"] not in done]):
            with open(a.out, "a") as o: o.write(json.dumps(r) + "\n")
            print(r["id"], len(r.get("failed", [])), r.get("failed", [])[:6], r.get("error", ""), r.get("errors", ""), flush=True)
