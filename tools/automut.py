#!/usr/bin/env python3
"""Systematic small edits of the model, to find theorems that are too weak.

usage: automut.py out.jsonl seed per_definition workers [theory ...]

For every definition of a model theory up to per_definition edits are drawn: another comparison,
another constant, a swapped connective, an exchanged minimum.  The edited theory and the theories
that depend on it are compiled in a scratch copy, in order, up to the first failure.  A line of
out.jsonl says what was edited and which proof failed first with the theorems that rest on it
(found from the text of the proofs), or that everything still compiles ("survived").
"""
import json, os, random, re, subprocess, sys, shutil
from concurrent.futures import ThreadPoolExecutor
sys.path.insert(0, os.path.dirname(os.path.abspath(__file__)))
from mutate import deps, SRC, HEAD

MODEL = ["Tag", "Codec", "Erthink", "Arena", "Hippeus", "Values", "Scan", "Audit", "Image",
         "GearOpt", "Numeric", "Schema", "Growth", "Iterators", "Legacy", "Tuple", "TupleMore", "Gear",
         "Text", "D2a", "Managed", "Facade", "Traits", "Typed", "Guarded", "Held", "Keywords", "Named", "Scales",
         "Walk", "Tokens", "Buffers", "Alias", "Removal", "Views", "Cpu", "Stale", "References"]
DEF = re.compile(r"^(?:Definition|Fixpoint|with)\s+([A-Za-z0-9_']+)", re.M)
RULES = [
    (r"<\?", "<=?"), (r"<=\?", "<?"), (r">\?", ">=?"), (r">=\?", ">?"),
    (r"&&", "||"), (r"\|\|", "&&"), (r"\bnegb\b", "id"),
    (r"\bZ\.min\b", "Z.max"), (r"\bZ\.max\b", "Z.min"), (r"\bZ\.land\b", "Z.lor"), (r"\bZ\.lor\b", "Z.land"),
    (r"\bZ\.shiftr\b", "Z.shiftl"), (r"\bZ\.shiftl\b", "Z.shiftr"),
    (r"(?<= )\+(?= )", "-"), (r"(?<= )-(?= )", "+"),
    (r"\btrue\b", "false"), (r"\bfalse\b", "true"),
    (r"\bu8\b", "id"), (r"\bu16\b", "id"), (r"\bu32\b", "id"), (r"\bu64\b", "id"),
    (r"\bhead\b", "pivot"), (r"\btail\b", "end_"), (r"\bjc\b", "jv"), (r"\bjv\b", "jc"),
]
NUM = re.compile(r"(?<![\w%.'^])(\d+)(?![\w%'])(?!\s*\|)(?!\s*=>)")


def comments(s):
    """mask of positions inside comments"""
    mask, depth, i = bytearray(len(s)), 0, 0
    while i < len(s):
        if s.startswith("(*", i):
            depth += 1; mask[i] = mask[i + 1] = 1; i += 2; continue
        if s.startswith("*)", i) and depth:
            depth -= 1; mask[i] = mask[i + 1] = 1; i += 2; continue
        mask[i] = depth > 0; i += 1
    return mask


def candidates(t):
    s = open(f"{SRC}/theories/{t}.v").read()
    mask = comments(s)
    ds = [m for m in DEF.finditer(s) if not mask[m.start()]]
    stops = sorted([m.start() for m in re.finditer(r"^(Definition|Fixpoint|with|Lemma|Theorem|Record|Inductive|Example|Section|End|Arguments|Notation|From|Ltac|Global|Instance)\b", s, re.M)] + [len(s)])
    for m in ds:
        end = min(x for x in stops if x > m.start())
        c = []
        body = s.find(":=", m.end(), end)
        if body < 0:
            continue
        for pat, new in RULES:
            for x in re.finditer(pat, s[body:end]):
                p = body + x.start()
                if not mask[p]:
                    c.append((p, body + x.end(), new))
        for x in NUM.finditer(s, body, end):
            if not mask[x.start()]:
                n = int(x.group(1))
                c.append((x.start(), x.end(), str(n + 1)))
                if n:
                    c.append((x.start(), x.end(), str(n - 1)))
        yield m.group(1), s, c


def users():
    """lemma -> theorems of Properties files that rest on it, by the text of the proofs"""
    uses, thms = {}, set()
    for f in os.listdir(SRC + "/theories"):
        if not f.endswith(".v"):
            continue
        s = open(f"{SRC}/theories/{f}").read()
        hs = list(HEAD.finditer(s))
        for i, m in enumerate(hs):
            txt = s[m.end():hs[i + 1].start() if i + 1 < len(hs) else len(s)]
            for w in set(re.findall(r"[A-Za-z_][\w']*", txt)):
                uses.setdefault(w, set()).add(m.group(2))
            if f.startswith("Properties") and m.group(1) == "Theorem":
                thms.add(m.group(2))
    return uses, thms


def resting(uses, thms, name):
    seen, todo = {name}, [name]
    while todo:
        for u in uses.get(todo.pop(), ()):
            if u not in seen:
                seen.add(u); todo.append(u)
    return sorted(seen & thms)


def label(s, x):
    a, b, new = x
    ls, le = s.rfind("\n", 0, a) + 1, s.find("\n", b)
    return s[ls:le].strip() + "  ==>  " + (s[ls:a] + new + s[b:le]).strip()


def attempt(job, d, order, uses, thms, scratch):
    t, name, s, (a, b, new) = job
    for f in os.listdir(SRC + "/theories"):
        if f.endswith(".v") or f.endswith(".vo"):
            dst = f"{scratch}/theories/{f}"
            if os.path.lexists(dst):
                os.unlink(dst)
            os.symlink(f"{SRC}/theories/{f}", dst)
    line = s.count("\n", 0, a) + 1
    r = {"file": t, "definition": name, "line": line, "edit": label(s, (a, b, new))}
    dirty = {t}
    for u in order:
        if u != t and not (set(d.get(u, [])) & dirty):
            continue
        dirty.add(u)
        for ext in (".vo", ".vos", ".vok", ".glob"):
            if os.path.lexists(f"{scratch}/theories/{u}{ext}"):
                os.unlink(f"{scratch}/theories/{u}{ext}")
        if u == t:
            os.unlink(f"{scratch}/theories/{t}.v")
            open(f"{scratch}/theories/{t}.v", "w").write(s[:a] + new + s[b:])
        p = subprocess.run(["bash", "-c", f"ulimit -v 5000000; exec timeout 300 coqc -Q theories Verif theories/{u}.v"],
                           cwd=scratch, capture_output=True)
        if p.returncode:
            if u == t:
                return dict(r, outcome="ill-typed")
            err = p.stderr.decode(errors="replace")
            m = re.findall(r"line (\d+), characters", err)
            raw = open(f"{scratch}/theories/{u}.v").read()
            who = None
            if m:
                pos = sum(len(l) + 1 for l in raw.split("\n")[:int(m[-1]) - 1]) + 1
                for h in HEAD.finditer(raw):
                    if h.start() <= pos:
                        who = h.group(2)
            return dict(r, outcome="noticed", theory=u, proof=who or "time limit", theorems=resting(uses, thms, who) if who else [])
    return dict(r, outcome="survived")


def main():
    out, seed, per, workers = sys.argv[1], int(sys.argv[2]), int(sys.argv[3]), int(sys.argv[4])
    names = sys.argv[5:] or MODEL
    rnd = random.Random(seed)
    d = deps()
    order = [l.strip()[9:-2] for l in open(SRC + "/_CoqProject") if l.startswith("theories/")]
    uses, thms = users()
    done = set()
    if os.path.exists(out):
        done = {(x["file"], x["definition"], x["edit"]) for x in map(json.loads, open(out))}
    jobs = []
    for t in names:
        if not os.path.exists(f"{SRC}/theories/{t}.v"):
            continue
        for name, s, c in candidates(t):
            rnd.shuffle(c)
            jobs += [(t, name, s, x) for x in c[:per] if (t, name, label(s, x)) not in done]
    print(len(jobs), "jobs", flush=True)
    free = [f"/tmp/mut/a{os.getpid()}.{i}" for i in range(workers)]
    for f in free:
        shutil.rmtree(f, ignore_errors=True)
        os.makedirs(f + "/theories")

    def work(job):
        scratch = free.pop()
        try:
            return attempt(job, d, order, uses, thms, scratch)
        finally:
            free.append(scratch)
    with ThreadPoolExecutor(workers) as ex:
        for r in ex.map(work, jobs):
            with open(out, "a") as f:
                f.write(json.dumps(r) + "\n")
            if r["outcome"] == "survived":
                print(r["file"], r["definition"], r["line"], r["edit"], flush=True)


if __name__ == "__main__":
    main()
