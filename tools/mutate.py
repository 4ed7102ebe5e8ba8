#!/usr/bin/env python3
"""Try wrong programs against the theorems.

usage: mutate.py mutants.json out.jsonl [id ...]

Each mutant is {"id", "file", "old", "new", "claim", "what", "targets": [theory, ...]}.  The edit is
applied to a scratch copy of rocq/, then every theory the targets need is recompiled.  A proof that
breaks is replaced by Admitted (in the scratch copy only) so that the compilation can go on; the
theorems of the targets that now rest on an admitted proof, and the examples that fail, are
reported.  An empty list means that the theorems do not notice the edit.
"""
import json, os, re, subprocess, sys, shutil

ROOT = os.path.dirname(os.path.dirname(os.path.abspath(__file__)))
SRC = os.environ.get("MUT_SRC", os.path.join(ROOT, "rocq"))
SCRATCH = os.environ.get("MUT_SCRATCH", "/tmp/mut/w")
HEAD = re.compile(r"^\s*(?:Local\s+|Global\s+|#\[[^\]]*\]\s*)?(Lemma|Theorem|Example|Corollary|Fact|Remark)\s+([A-Za-z0-9_']+)", re.M)


def deps():
    out = subprocess.run(["coqdep", "-Q", "theories", "Verif"] + sorted(
        "theories/" + f for f in os.listdir(os.path.join(SRC, "theories")) if f.endswith(".v")),
        cwd=SRC, capture_output=True, text=True).stdout
    d = {}
    for line in out.splitlines():
        m = re.match(r"theories/(\w+)\.vo .*?: (.*)", line)
        if m:
            d[m.group(1)] = [x for x in re.findall(r"theories/(\w+)\.vo\b", m.group(2)) if x != m.group(1)]
    return d


def closure(d, ts):
    seen = []
    def go(t):
        for x in d.get(t, []):
            go(x)
        if t not in seen:
            seen.append(t)
    for t in ts:
        go(t)
    return seen


def compile_one(t, limit):
    """returns (ok, offset of the failure, message, stdout)"""
    path = f"theories/{t}.v"
    cmd = f"ulimit -v 7000000; exec timeout {limit} coqc -time -Q theories Verif {path}"
    p = subprocess.run(["bash", "-c", cmd], cwd=SCRATCH, capture_output=True)
    out, err = p.stdout.decode(errors="replace"), p.stderr.decode(errors="replace")
    if p.returncode == 0:
        return True, 0, "", out
    m = re.findall(r'File "[^"]*", line (\d+), characters (\d+)-(\d+)', err)
    raw = open(os.path.join(SCRATCH, path), "rb").read()
    if m and p.returncode == 1:
        line, c0, _ = map(int, m[-1])
        off = sum(len(l) + 1 for l in raw.split(b"\n")[:line - 1]) + c0
    else:
        ch = re.findall(r"^Chars (\d+) - (\d+)", out, re.M)
        off = int(ch[-1][1]) + 1 if ch else 0
        err = "time or memory limit\n" + err
    return False, off, err.strip()[-300:], out


def admit(t, off):
    """replace the proof around byte offset off by Admitted; returns the name or None"""
    path = os.path.join(SCRATCH, "theories", t + ".v")
    raw = open(path, "rb").read().decode()
    pos = len(raw.encode()[:off].decode(errors="ignore"))
    best = None
    for m in HEAD.finditer(raw):
        if m.start() <= pos:
            best = m
    if best is None:
        return None
    pr = re.compile(r"\bProof\b[^.]*\.").search(raw, best.end())
    if not pr:
        return None
    q = re.compile(r"\b(Qed|Defined)\.").search(raw, pr.end())
    if not q or q.end() < pos - 2:
        return None
    raw = raw[:pr.start()] + "Admitted. (* " + "x" + " *)" + raw[q.end():]
    open(path, "w").write(raw)
    return best.group(2)


def run(mu, d):
    for f in os.listdir(os.path.join(SRC, "theories")):
        if f.endswith(".v"):
            shutil.copy2(os.path.join(SRC, "theories", f), os.path.join(SCRATCH, "theories", f))
    for f in os.listdir(os.path.join(SRC, "theories")):
        if f.endswith(".vo"):
            shutil.copy2(os.path.join(SRC, "theories", f), os.path.join(SCRATCH, "theories", f))
    path = os.path.join(SCRATCH, "theories", mu["file"] + ".v")
    s = open(path).read()
    if s.count(mu["old"]) != 1:
        return {"error": f"pattern occurs {s.count(mu['old'])} times"}
    open(path, "w").write(s.replace(mu["old"], mu["new"]))
    broken, examples, failed, dirty = [], [], [], {mu["file"]}
    for t in closure(d, mu["targets"]):
        if t != mu["file"] and not (set(d.get(t, [])) & dirty):
            continue
        dirty.add(t)
        for _ in range(80):
            ok, off, msg, out = compile_one(t, 400)
            if ok:
                break
            name = admit(t, off)
            if name is None:
                return {"error": f"{t}: {msg}", "broken_lemmas": broken}
            broken.append(name)
        else:
            return {"error": f"{t}: too many failures", "broken_lemmas": broken}
        if t in mu["targets"]:
            text = open(os.path.join(SCRATCH, "theories", t + ".v")).read()
            names = re.findall(r"^Print Assumptions (\w+)\.", text, re.M)
            blocks = re.findall(r"(Closed under the global context|Axioms:)", out)
            failed += [n for n, b in zip(names, blocks) if b == "Axioms:"]
            ex = [m.group(2) for m in HEAD.finditer(text) if m.group(1) == "Example"]
            examples += [b for b in broken if b in ex]
    return {"theorems_failed": failed, "examples_failed": examples, "broken_lemmas": broken}


def main():
    mutants = json.load(open(sys.argv[1]))
    want = set(sys.argv[3:])
    os.makedirs(os.path.join(SCRATCH, "theories"), exist_ok=True)
    d = deps()
    for mu in mutants:
        if want and mu["id"] not in want:
            continue
        r = run(mu, d)
        r["id"] = mu["id"]
        with open(sys.argv[2], "a") as f:
            f.write(json.dumps(r) + "\n")
        print(mu["id"], "ERROR " + r["error"] if "error" in r else (r["theorems_failed"], r["examples_failed"]), flush=True)


if __name__ == "__main__":
    main()
