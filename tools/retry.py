#!/usr/bin/env python3
"""Try the edits that survived an earlier run of automut.py again, on the present sources.

usage: retry.py earlier.jsonl out.jsonl workers
"""
import json, os, shutil, sys
from concurrent.futures import ThreadPoolExecutor
sys.path.insert(0, os.path.dirname(os.path.abspath(__file__)))
from mutate import deps, SRC
from automut import attempt, candidates, label, users


def main():
    old = [x for x in map(json.loads, open(sys.argv[1])) if x["outcome"] == "survived"]
    done = set()
    if os.path.exists(sys.argv[2]):
        done = {(x["file"], x["definition"], x["edit"]) for x in map(json.loads, open(sys.argv[2]))}
    d = deps()
    order = [l.strip()[9:-2] for l in open(SRC + "/_CoqProject") if l.startswith("theories/")]
    uses, thms = users()
    jobs, lost = [], []
    for t in sorted({x["file"] for x in old}):
        here = {}
        for name, s, c in candidates(t):
            for x in c:
                here.setdefault((name, label(s, x)), (t, name, s, x))
        for x in old:
            k = (x["definition"], x["edit"])
            if x["file"] == t and (t,) + k not in done:
                if k in here:
                    jobs.append(here[k])
                else:
                    lost.append(k)
    print(len(jobs), "jobs; no longer there:", lost, flush=True)
    workers = int(sys.argv[3])
    free = [f"/tmp/mut/r{os.getpid()}.{i}" for i in range(workers)]
    for f in free:
        shutil.rmtree(f, ignore_errors=True)
        os.makedirs(f + "/theories")

    def work(job):
        scratch = free.pop()
        try:
            return attempt(job, d, order, uses, thms, scratch)
        finally:
            free.append(scratch)
    with ThreadPoolExecutor(workers) as ex:
        for r in ex.map(work, jobs):
            with open(sys.argv[2], "a") as f:
                f.write(json.dumps(r) + "\n")
            if r["outcome"] == "survived":
                print(r["file"], r["definition"], r["line"], r["edit"], flush=True)


if __name__ == "__main__":
    main()
