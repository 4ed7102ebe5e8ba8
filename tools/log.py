#!/usr/bin/env python3
"""log.py mutants.json results.jsonl >> seeded/LOG.jsonl
Joins a list of hand-written wrong programs (tools/mutate.py) with their outcomes."""
import json, re, sys

NOTES = json.load(open(sys.argv[3])) if len(sys.argv) > 3 else {}
res = {r["id"]: r for r in map(json.loads, open(sys.argv[2]))}
for m in json.load(open(sys.argv[1])):
    r = res.get(m["id"])
    if not r:
        continue
    src = open(f"/verif/rocq/theories/{m['file']}.v").read()
    pos = src.find(m["old"])
    name = None
    for h in re.finditer(r"^\s*(?:Definition|Fixpoint|with|Inductive|Record)\s+([A-Za-z_0-9']+)", src, re.M):
        if h.start() <= pos:
            name = h.group(1)
    note = NOTES.get(m["id"], {})
    e = {"id": m["id"], "definition": f"theories/{m['file']}.v: {name}", "edit": f"{m['old']}  ==>  {m['new']}",
         "what": m["what"], "claim_broken": m["claim"], "theorems_failed": r["theorems_failed"],
         "examples_failed": r.get("examples_failed", []), "first_broken_lemmas": r.get("broken_lemmas", [])[:4],
         "theorems_tightened": note.get("tightened", [])}
    if note.get("note"):
        e["note"] = note["note"]
    print(json.dumps(e))
