#!/usr/bin/env python3
"""Seed one realistic bug at a time into a scratch copy of the model and see which theorems fail.

usage: mutate.py batch.json     (a list of {"def", "file", "old", "new", "claim", "props", ["nth"]})
Every attempt appends one line to seeded/LOG.jsonl.  A bug "survives" when the files that hold all
theorems of the broken properties still compile.  Only these files (and what they need) are rebuilt; they are listed
under "files_checked".  Lines without that entry come from a rebuild of everything.
"""
import json, re, subprocess, sys, os, shutil
root = os.path.dirname(os.path.dirname(os.path.abspath(__file__)))
scratch = "/tmp/mut"
def names(path):
    """(line, kind, name) of every statement of a file"""
    return [(i, m.group(1), m.group(2)) for i, l in enumerate(open(path), 1)
            for m in [re.match(r"\s*(Lemma|Theorem|Example|Corollary|Fact|Definition|Fixpoint)\s+(\w+)", l)] if m]
def run(b):
    shutil.rmtree(scratch, ignore_errors=True)
    subprocess.run(["cp", "-a", f"{root}/rocq", scratch], check=True)
    p = f"{scratch}/theories/{b['file']}.v"
    s = open(p).read()
    parts = s.split(b["old"])
    nth = b.get("nth", 1)
    assert len(parts) > nth, ("pattern not found", b)
    assert len(parts) == 2 or "nth" in b, ("pattern ambiguous", len(parts) - 1, b)
    s = b["old"].join(parts[:nth]) + b["new"] + b["old"].join(parts[nth:])
    open(p, "w").write(s)
    proj = re.sub(r"theories/Assumptions\d\.v\n", "", open(f"{scratch}/_CoqProject").read())
    open(f"{scratch}/_CoqProject", "w").write(proj)
    subprocess.run("coq_makefile -f _CoqProject -o Makefile", shell=True, cwd=scratch, capture_output=True)
    targets = [f[:-2] for f in sorted(os.listdir(f"{scratch}/theories")) if f.startswith("Prop") and f.endswith(".v")
               and any(n.startswith(tuple(q + "_" for q in b["props"])) for _, k, n in names(f"{scratch}/theories/{f}") if k == "Theorem")]
    try:
        r = subprocess.run("timeout 1500 make -k -j4 " + " ".join(f"theories/{f}.vo" for f in targets), shell=True, cwd=scratch, capture_output=True, text=True)
        out = r.stdout + r.stderr
    except Exception as e:
        out = str(e)
    failed = []
    for m in re.finditer(r'File "\./theories/(\w+)\.v", line (\d+)[^\n]*\n(?:Error|.*\n?Error)', out):
        f, ln = m.group(1), int(m.group(2))
        if f == b["file"]:
            failed.append(f"{f}:!ill-typed edit")
            continue
        enc = [n for n in names(f"{scratch}/theories/{f}.v") if n[0] <= ln]
        failed.append(f"{f}.{enc[-1][2]}" if enc else f)
    notbuilt = [f[:-2] for f in sorted(os.listdir(f"{scratch}/theories")) if f[:-2] in targets
                and not (os.path.exists(f"{scratch}/theories/{f}o")
                         and os.path.getmtime(f"{scratch}/theories/{f}o") >= os.path.getmtime(p))
                and depends(f[:-2], b["file"])]
    survivors = [q for q in b["props"] if not [1 for f in notbuilt if f.startswith("Prop") and
                 any(n.startswith(q + "_") for _, k, n in names(f"{scratch}/theories/{f}.v"))]]
    entry = {"definition": f"{b['file']}.{b['def']}", "edit": f"{b['old']}  ==>  {b['new']}",
             "claim_broken": f"{'/'.join(b['props'])}: {b['claim']}",
             "theorems_failed": sorted(set(failed)),
             "files_checked": targets, "files_no_longer_building": notbuilt,
             "survived": survivors, "theorems_tightened": []}
    open(f"{root}/seeded/LOG.jsonl", "a").write(json.dumps(entry) + "\n")
    print(("SURVIVED " + str(survivors)) if survivors else "killed", entry["definition"], "|", b["new"][:60], "|", sorted(set(failed)), flush=True)
deps = {}
def depends(f, target):
    if f == target: return True
    if f not in deps:
        s = open(f"{scratch}/theories/{f}.v").read()
        deps[f] = set(w for m in re.finditer(r"From Verif Require (?:Import|Export) ([^.]*)\.", s) for w in m.group(1).split())
    return any(depends(g, target) for g in deps[f])
for b in json.load(open(sys.argv[1])):
    deps.clear()
    run(b)
