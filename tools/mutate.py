#!/usr/bin/env python3
"""Mutation testing of the theorems, in scratch copies outside /verif.

usage: mutate.py mutants.json workers log.jsonl

mutants.json: list of {"id","definition","claim"} with "file","old","new" or "edits":[[file,old,new],..], and optionally "only":[property files to build]. For each one the edit is applied to
a copy of rocq/, the copy is built, and each proof that breaks is cut out (Admitted, in the copy only)
until the rest builds. Mutants that log.jsonl has already are skipped. A property theorem counts as failed if its own proof broke or if Print
Assumptions shows that it rests on a proof that was cut out. Results are appended to log.jsonl.
"""
import json, os, re, shutil, subprocess, sys, time
from concurrent.futures import ThreadPoolExecutor

SRC = os.environ.get("MUT_SRC", "/verif/rocq")
WORK = os.environ.get("MUT_WORK", "/tmp/mut")
HEAD = re.compile(r"^\s*(?:#\[\w+\]\s*)?(?:Global |Local )?(Lemma|Theorem|Example|Corollary|Remark|Fact|Instance)\s+(\S+)")
START = re.compile(r"^\s*(?:#\[\w+\]\s*)?(?:Global |Local )?(Lemma|Theorem|Example|Corollary|Remark|Fact|Instance|Definition|Fixpoint|Inductive|Record|Section|End|Notation)\b")

def cut(path, line):
    """replace the proof around [line] by Admitted; return the lemma's name or None"""
    L = open(path).read().split("\n")
    i = line - 1
    while i >= 0 and not START.match(L[i]): i -= 1
    m = HEAD.match(L[i]) if i >= 0 else None
    if not m: return None
    j = i
    while j < len(L) and not re.search(r"\bProof\b", L[j]): j += 1
    k = j
    while k < len(L) and not re.search(r"\b(Qed|Defined)\.", L[k]): k += 1
    if k >= len(L) or line - 1 < j or line - 1 > k: return None
    rest = re.split(r"\b(?:Qed|Defined)\.", L[k], 1)[1]
    pre = L[j][:L[j].index("Proof")]
    L[j:k + 1] = [pre + "Admitted." + rest] + [""] * (k - j)
    open(path, "w").write("\n".join(L))
    return m.group(2)

def run(args):
    n, mu = args
    d = f"{WORK}/w{n}"
    shutil.rmtree(d, ignore_errors=True)
    subprocess.run(["cp", "-a", SRC, d], check=True)
    edits = mu.get("edits") or [[mu["file"], mu["old"], mu["new"]]]
    out = dict(id=mu["id"], definition=mu["definition"], edit="; ".join(f"{f}: {o}  ==>  {n}" for f, o, n in edits), claim=mu["claim"])
    for f, old, new in edits:
        p = f"{d}/theories/{f}"
        s = open(p).read()
        if s.count(old) != 1:
            out["error"] = f"{s.count(old)} occurrences of {old!r}"; return out
        open(p, "w").write(s.replace(old, new))
    for f in os.listdir(f"{d}/theories"):  # a proof search that runs away counts as a broken proof
        if f.endswith(".v"):
            p = f"{d}/theories/{f}"; st = os.stat(p); s = open(p).read(); open(p, "w").write("Set Default Timeout 120. " + s)
            if not any(f == e[0] for e in edits): os.utime(p, ns=(st.st_atime_ns, st.st_mtime_ns))
    broken, stuck = [], []
    def make(target=[]):
        r = subprocess.run(["timeout", "3600", "nice", "-n", "10", "make", "-k", "-j2"] + target, cwd=d, capture_output=True, text=True)
        return r.stdout + r.stderr, r.returncode
    only = mu.get("only", [])  # property files to look at; all by default
    for _ in range(400):
        o, code = make([f"theories/{p}.vo" for p in only])
        errs = re.findall(r'File "\./(theories/\w+\.v)", line (\d+), characters [\d-]+:\s*\nError', o)
        if not errs:
            if code: out["error"] = "build ended early: " + o[-300:]; return out
            break
        progress = False
        for f, l in errs:
            name = cut(f"{d}/{f}", int(l))
            if name: broken.append(f"{f[9:-2]}.{name}"); progress = True
            else: stuck.append(f"{f}:{l}")
        if not progress: break
    failed = []
    for f in sorted(os.listdir(f"{d}/theories")):
        if not (f.startswith("Prop") and f.endswith(".v")) or (only and f[:-2] not in only): continue
        src = open(f"{d}/theories/{f}").read()
        ths = re.findall(r"^Theorem (\w+)", src, re.M)
        if not os.path.exists(f"{d}/theories/{f}o"):
            failed += [t + " (not built)" for t in ths]; continue
        def coqc(q):
            os.makedirs(f"{d}/q", exist_ok=True); open(f"{d}/q/q.v", "w").write(q)
            return subprocess.run(["timeout", "1200", "coqc", "-Q", f"{d}/theories", "Verif", f"{d}/q/q.v"], capture_output=True, text=True).stdout
        if "Closed under" in coqc(f"From Verif Require Import {f[:-2]}.\nDefinition all_of_them := ({', '.join('@' + t for t in ths)}, tt).\nPrint Assumptions all_of_them.\n"): continue
        q = f"From Verif Require Import {f[:-2]}.\n" + "".join(f'Goal True. idtac "@@ {t}". exact I. Qed.\nPrint Assumptions {t}.\n' for t in ths)
        for part in coqc(q).split("@@ ")[1:]:
            t, body = part.split("\n", 1)
            if "Closed under" not in body: failed.append(t)
    out["broken_proofs"] = broken
    if stuck: out["stuck"] = stuck
    out["theorems_failed"] = failed
    if only: out["checked"] = only
    out["theorems_tightened"] = []
    shutil.rmtree(d, ignore_errors=True)
    return out

if __name__ == "__main__":
    start = time.time()
    logged = {json.loads(l)["id"] for l in open(sys.argv[3])} if os.path.exists(sys.argv[3]) else set()
    mus = [m for m in json.load(open(sys.argv[1])) if m["id"] not in logged]; w = int(sys.argv[2])
    def one(args):
        if time.time() - start > 50 * 60: return  # run again for the rest
        out = run(args)
        if "error" in out: print(json.dumps(out), flush=True); return
        with open(sys.argv[3], "a") as f: f.write(json.dumps(out) + "\n")
        print(json.dumps(out), flush=True)
    with ThreadPoolExecutor(w) as ex: list(ex.map(one, list(enumerate(mus))))
