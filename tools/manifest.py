#!/usr/bin/env python3
"""Regenerate MANIFEST.json and rocq/theories/Assumptions[1-4].v from the property files.

Every theorem named Cxx_* in a rocq/theories/Prop*.v file is attributed to property Cxx.
Notes and statuses other than "proved" are in tools/notes.json.
"""
import json, re, glob, os
root = os.path.dirname(os.path.dirname(os.path.abspath(__file__)))
props = [json.loads(l)["id"] for l in open(f"{root}/properties.jsonl")]
notes = json.load(open(f"{root}/tools/notes.json"))
order = [l.strip() for l in open(f"{root}/rocq/_CoqProject") if l.strip().startswith("theories/Prop")]
thms, mods = {}, []
for f in order:
    mods.append(os.path.basename(f)[:-2])
    for m in re.finditer(r"^\s*Theorem (C\d\d+_\w+)", open(f"{root}/rocq/{f}").read(), re.M):
        thms.setdefault(m.group(1).split('_')[0], []).append(m.group(1))
claims = []
for p in props:
    n = notes.get(p, {})
    ts = thms.get(p, [])
    if not ts and "status" not in n:
        continue
    claims.append({"property": p, "status": n.get("status", "proved"), "theorems": ts, "note": n.get("note", "")})
json.dump({"claims": claims}, open(f"{root}/MANIFEST.json", "w"), indent=1)
names = [t for c in claims for t in c["theorems"]]
for k in range(4):   # four files, so that they are checked in parallel
    with open(f"{root}/rocq/theories/Assumptions{k + 1}.v", "w") as o:
        o.write("(** Generated by tools/manifest.py: the axioms each property theorem depends on. *)\n")
        o.write("From Verif Require Import " + " ".join(mods) + ".\n")
        for t in names[k::4]:
            o.write(f"Print Assumptions {t}.\n")
print(len(claims), "claims,", sum(len(c["theorems"]) for c in claims), "theorems")
