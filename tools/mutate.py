#!/usr/bin/env python3
"""Apply wrong edits to the model in a scratch copy and report which theorems notice.

usage: mutate.py MUTANTS.json [-j N] [--log] [--first]
With --first the files that the claimed property rests on are rebuilt first, and a mutant that one of its theorems
notices is not followed further.
MUTANTS.json is a list of {"definition", "file", "old", "new", "claim"}; `old` must occur exactly once in `file`
(or give "nth": k, counting from 1).  For every mutant the files that depend on the edited one are rebuilt.
A proof that fails is replaced by `Admitted` in the scratch copy (never in /verif), so that the remaining proofs
are still tried; the property theorems that then rest on an admitted lemma are found with their Print Assumptions.
"""
import json, os, re, shutil, subprocess, sys, tempfile
from concurrent.futures import ThreadPoolExecutor

ROOT = os.path.dirname(os.path.dirname(os.path.abspath(__file__)))
ROCQ = os.path.join(ROOT, "rocq")
LOG = os.path.join(ROOT, "seeded", "LOG.jsonl")

def order():
    files = [l.strip().split("/")[1][:-2] for l in open(os.path.join(ROCQ, "_CoqProject")) if l.strip().endswith(".v")]
    out = subprocess.run(["coqdep", "-Q", "theories", "Verif"] + ["theories/%s.v" % f for f in files], cwd=ROCQ, capture_output=True, text=True).stdout
    deps = {}
    for line in out.splitlines():
        m = re.match(r"theories/(\w+)\.vo\b.*?:(.*)", line)
        if m:
            deps[m.group(1)] = set(re.findall(r"theories/(\w+)\.vo\b", m.group(2)))
    done, res = set(), []
    while len(res) < len(files):
        for f in files:
            if f not in done and deps[f] <= done:
                res.append(f); done.add(f)
    return res, deps

def downstream(f, res, deps):
    hit = {f}
    for g in res:
        if deps[g] & hit:
            hit.add(g)
    return [g for g in res if g in hit]

STMT = re.compile(r"^\s*(?:Local\s+)?(Lemma|Theorem|Example|Corollary|Fact|Remark)\s+([\w']+)", re.M)

def claim_first(files, claim, deps):
    """The files sorted such that what the property rests on comes first"""
    need = [f for f in deps if f.startswith("Prop_") and re.search(r"Theorem %s_" % claim, open(os.path.join(ROCQ, "theories", f + ".v")).read())]
    seen = set()
    while need:
        f = need.pop()
        if f not in seen:
            seen.add(f); need += deps[f]
    return [f for f in files if f in seen] + [f for f in files if f not in seen]

def admit_at(src, line):
    pos = sum(len(l) + 1 for l in src.split("\n")[:line - 1])
    last = None
    for m in STMT.finditer(src):
        if m.start() <= pos + 200 and src.count("\n", 0, m.start(1)) + 1 <= line:
            last = m
    if last is None:
        return None, None
    p = src.find("Proof.", last.end())
    q = re.compile(r"\bQed\.|\bDefined\.").search(src, p)
    if p < 0 or q is None or src.count("\n", 0, q.end()) + 1 < line:
        return None, None
    return last.group(2), src[:p] + "Admitted." + src[q.end():]

def run(args):
    k, mut, res, deps = args
    d = tempfile.mkdtemp(prefix="mut%d_" % k, dir="/tmp")
    try:
        th = os.path.join(d, "theories")
        shutil.copytree(os.path.join(ROCQ, "theories"), th)
        path = os.path.join(th, mut["file"])
        s = open(path).read()
        n = s.count(mut["old"])
        if "nth" in mut:
            parts = s.split(mut["old"])
            i = mut["nth"]
            if not 1 <= i < len(parts):
                return mut, {"invalid": "no occurrence %d" % i}
            s = mut["old"].join(parts[:i]) + mut["new"] + mut["old"].join(parts[i:])
        else:
            if n != 1:
                return mut, {"invalid": "old text occurs %d times" % n}
            s = s.replace(mut["old"], mut["new"])
        open(path, "w").write(s)
        failed, props, slow = [], [], []
        files, claim = downstream(mut["file"][:-2], res, deps), mut["claim"].split()[0]
        if "--first" in sys.argv:
            files = claim_first(files, claim, deps)
        for f in files:
            p = os.path.join(th, f + ".v")
            while True:
                try:
                    r = subprocess.run(["coqc", "-q", "-Q", "theories", "Verif", "theories/%s.v" % f], cwd=d, capture_output=True, text=True, timeout=900)
                except subprocess.TimeoutExpired:
                    return mut, {"invalid": "timeout in %s" % f, "failed": failed}
                if r.returncode == 0:
                    break
                m = re.search(r'File "[^"]*", line (\d+)', r.stderr)
                src = open(p).read()
                name, new = admit_at(src, int(m.group(1))) if m else (None, None)
                if name is None:
                    return mut, {"invalid": "%s: %s" % (f, r.stderr.strip()[-300:]), "failed": failed}
                failed.append(name)
                open(p, "w").write(new)
            if f.startswith("Prop_"):
                # Print Assumptions blocks in order of the commands
                names = re.findall(r"Print Assumptions ([\w']+)\.", open(p).read())
                blocks = re.split(r"(?=^Closed under the global context|^Axioms:)", r.stdout, flags=re.M)[1:]
                assert len(names) == len(blocks), (f, len(names), len(blocks))
                props += [n for n, b in zip(names, blocks) if not b.startswith("Closed")]
                if "--first" in sys.argv and any(n.startswith(claim) for n in props):
                    break
        return mut, {"failed": failed, "props": sorted(set(props + [n for n in failed if re.match(r"C\d\d_", n)]))}
    finally:
        shutil.rmtree(d, ignore_errors=True)

def main():
    muts = json.load(open(sys.argv[1]))
    j = int(sys.argv[sys.argv.index("-j") + 1]) if "-j" in sys.argv else 4
    res, deps = order()
    with ThreadPoolExecutor(j) as ex:
        for mut, r in ex.map(run, [(k, m, res, deps) for k, m in enumerate(muts)]):
            if "invalid" in r:
                print("INVALID", mut["definition"], "|", mut["new"][:60].replace("\n", " "), "|", r["invalid"]); continue
            noticed = [p for p in r["props"] if p.startswith(mut["claim"].split()[0])]
            print("SURVIVED" if not r["props"] else ("caught" if noticed else "caught-elsewhere"), mut["claim"].split()[0], mut["definition"], "|", mut["new"][:60].replace("\n", " "), "|", ", ".join(r["props"][:8]), "(%d)" % len(r["props"]), "" if r["props"] else "lemmas: " + ", ".join(r["failed"][:5]))
            sys.stdout.flush()
            if "--log" in sys.argv:
                with open(LOG, "a") as f:
                    f.write(json.dumps({"definition": mut["definition"], "edit": "%s: `%s` -> `%s`" % (mut["file"], mut["old"], mut["new"]),
                        "claim": mut["claim"], "failed": r["props"], "failed_lemmas": r["failed"][:20], "tightened": mut.get("tightened", [])}) + "\n")
main()
