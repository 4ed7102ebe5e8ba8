#!/usr/bin/env python3
"""autolog.py prefix results.jsonl [retry.jsonl [notes.json]]
Prints one line of seeded/LOG.jsonl per wrong program of tools/automut.py.  A program that survived the
first run is reported with its outcome against the tightened theorems (tools/retry.py), or with the note
that says why it behaves like the original.  Programs without a final outcome, among them those whose
proofs ran into the time limit, are left out."""
import json, re, sys

prefix = sys.argv[1]
runs = [json.loads(l) for l in open(sys.argv[2])]
retry = {}
if len(sys.argv) > 3:
    for l in open(sys.argv[3]):
        r = json.loads(l)
        retry[(r["file"], r["definition"], r["line"], r["edit"])] = r
notes = json.load(open(sys.argv[4])) if len(sys.argv) > 4 else []
for i, r in enumerate(runs, 1):
    e = {"id": f"{prefix}{i:04d}", "definition": f"theories/{r['file']}.v: {r['definition']}", "edit": r["edit"]}
    if r["outcome"] == "ill-typed" or r.get("proof") == "time limit":
        continue
    tight = []
    note = None
    if r["outcome"] == "survived":
        q = retry.get((r["file"], r["definition"], r["line"], r["edit"]))
        if q and q["outcome"] == "noticed":
            tight = [t for t in [q.get("proof")] if t and re.match(r"C\d\d", t)] or q.get("theorems", [])[:3]
            r = q
        else:
            for n in notes:
                if n["file"] == r["file"] and n["definition"] == r["definition"] and n.get("match", "") in r["edit"]:
                    note = n["note"]
            if note is None:
                continue
    th = r.get("theorems", []) or []
    e["claim_broken"] = " ".join(sorted({t[:3] for t in th})[:6]) or ("none" if note else "see first_broken_lemmas")
    e["theorems_failed"] = th[:8]
    e["first_broken_lemmas"] = [r["proof"]] if r.get("proof") else []
    e["theorems_tightened"] = tight
    if note:
        e["note"] = note
    print(json.dumps(e))
