#!/usr/bin/env python3
"""Seeded-bug testing.

usage: seed.py MUTANTS.json [id ...]      (SEED_BASE, SEED_WORK: other directories; SEED_REVERSE: from the end)

Works in /tmp/seed, never in /verif.  For every mutant the edit is applied to a
copy of rocq/, and the development is rebuilt.  A proof that fails is replaced
(in the copy) by an axiom, so that the build goes on; in the end a property
theorem counts as failed when its own proof failed or it depends on that axiom.
One JSON line per mutant is appended to /tmp/seed/out.jsonl.
"""
import json, os, re, shutil, subprocess, sys, time

BASE, WORK, OUT = os.environ.get("SEED_BASE", "/tmp/seed/base"), os.environ.get("SEED_WORK", "/tmp/seed/work"), "/tmp/seed/out.jsonl"
USING = BASE.rstrip("/") + ".using.json"
START = re.compile(r"^(?:\s*)(?:Local |Global |#\[[^\]]*\] )*(Theorem|Lemma|Corollary|Example|Fact|Remark|Definition|Fixpoint|Inductive|Record|Ltac|Notation|Instance)\s+([\w']+)")

def sh(cmd, cwd=None, timeout=None):
    p = subprocess.run(cmd, shell=True, cwd=cwd, stdout=subprocess.PIPE, stderr=subprocess.STDOUT, timeout=timeout)
    return p.returncode, p.stdout.decode(errors="replace")

def prepare():
    """A built copy, with the section variables used by every lemma."""
    shutil.rmtree(BASE, ignore_errors=True)
    os.makedirs(BASE)
    sh(f"git -C /verif archive HEAD rocq | tar x -C {BASE} --strip-components=1")
    p = BASE + "/theories/Base.v"
    s = open(p).read()
    s = s.rstrip() + "\n\nAxiom seed_cheat : forall P : Prop, P.\n"
    open(p, "w").write(s)
    sh("coq_makefile -f _CoqProject -o Makefile", BASE)
    rc, out = sh("nice -n 5 make -j3 COQEXTRAFLAGS='-set \"Suggest Proof Using\"'", BASE)
    assert rc == 0, out[-3000:]
    using = {}
    for m in re.finditer(r"The proof of ([\w'.]+)\s+should start with one of the following commands:\s+Proof using([^.]*)\.", out):
        using[m.group(1).split(".")[-1]] = m.group(2).strip()
    json.dump(using, open(USING, "w"))
    print(len(using), "section lemmas")

def enclosing(lines, n):
    """Index of the statement enclosing line n (0-based)."""
    for i in range(n, -1, -1):
        m = START.match(lines[i])
        if m:
            return i, m.group(1), m.group(2)
    return None, None, None

def cheat(path, n, using):
    lines = open(path).read().split("\n")
    i, kind, name = enclosing(lines, n)
    if kind not in ("Theorem", "Lemma", "Corollary", "Example", "Fact", "Remark", "Definition", "Instance"):
        return kind, name, False
    j = i
    while j < len(lines) and not re.match(r"^\s*Proof\b", lines[j]):
        j += 1
        if j < len(lines) and START.match(lines[j]):
            return kind, name, False
    if j >= len(lines) or n < j:
        return kind, name, False
    k = j
    while not re.search(r"\b(Qed|Defined)\.", lines[k]):
        k += 1
    u = using.get(name)
    start = f"Proof using {u}." if u is not None else "Proof."
    lines[j:k + 1] = [f"{start} apply Verif.Base.seed_cheat. Qed."]
    open(path, "w").write("\n".join(lines))
    return kind, name, True

def run(mut, using):
    t0 = time.time()
    sh(f"rm -rf {WORK} && cp -a {BASE} {WORK}")
    path = f"{WORK}/theories/{mut['file']}"
    s = open(path).read()
    assert s.count(mut["old"]) == 1, (mut["id"], s.count(mut["old"]))
    open(path, "w").write(s.replace(mut["old"], mut["new"]))
    failed, blocked, log = [], [], []
    props = [f for f in sorted(os.listdir(WORK + "/theories")) if f.startswith("Prop") and f.endswith(".v")]
    # first the files of the property that should fail, all the files when nothing does
    cited = re.findall(r"C\d\d", mut["breaks"])
    first = [f for f in props if any(re.search(r"^Theorem (C\d\d_)*%s_" % c, open(f"{WORK}/theories/{f}").read(), re.M) for c in cited)]
    for targets in ([first, props] if first else [props]):
        attempt(mut, using, targets, failed, blocked)
        broken = results(targets, blocked)
        if broken:
            break
    fails_ex = [x for x in failed if re.match(r"Prop\w*\.", x) and x.split(".")[1] not in broken]
    rec = dict(id=mut["id"], definition=f"{mut['file'][:-2]}.{mut['definition']}", edit=f"{mut['old'].strip()}  =>  {mut['new'].strip()}",
               breaks=mut["breaks"], failing_proofs=failed, property_theorems_failed=broken, examples_failed=fails_ex, blocked=blocked,
               seconds=round(time.time() - t0))
    with open(OUT, "a") as o:
        o.write(json.dumps(rec) + "\n")
    print(mut["id"], "failed:", failed[:4], "props:", broken[:6], "blocked:", blocked[:2], rec["seconds"], "s", flush=True)

def attempt(mut, using, targets, failed, blocked):
    for rnd in range(60):
        try:
            rc, out = sh("nice -n 10 make -k -j2 " + " ".join(f"theories/{f}o" for f in targets) + " 2>&1", WORK, timeout=2500)
        except subprocess.TimeoutExpired:
            blocked.append("timeout"); break
        if rc == 0:
            break
        errs = re.findall(r'File "\./theories/(\w+\.v)", line (\d+), characters [\d-]+:\nError', out)
        progress = False
        for f, ln in sorted(set(errs)):
            kind, name, ok = cheat(f"{WORK}/theories/{f}", int(ln) - 1, using)
            failed.append(f"{f[:-2]}.{name}")
            if ok: progress = True
            else: blocked.append(f"{f[:-2]}.{name}")
        if not progress:
            if not errs: blocked.append(out[-500:])
            break

def results(targets, blocked):
    broken = []
    for f in targets:
        src = open(f"{WORK}/theories/{f}").read()
        names = re.findall(r"Print Assumptions ([\w']+)\.", src)
        if not os.path.exists(f"{WORK}/theories/{f}o"):
            if blocked: broken.append(f + ": not built")
            continue
        rc, out = sh(f"coqc -Q theories Verif theories/{f}", WORK, timeout=1500)
        parts = re.split(r"(?=^Closed under the global context|^Axioms:)", out, flags=re.M)
        parts = [p for p in parts if p.startswith("Closed") or p.startswith("Axioms")]
        if len(parts) != len(names):
            broken.append(f"{f}: {len(parts)} results for {len(names)} theorems")
            continue
        broken += [n for n, p in zip(names, parts) if "seed_cheat" in p]
    return broken

if __name__ == "__main__":
    if sys.argv[1] == "--prepare":
        prepare(); sys.exit()
    muts = json.load(open(sys.argv[1]))
    using = json.load(open(USING))
    ids = sys.argv[2:]
    for m in (reversed(muts) if os.environ.get("SEED_REVERSE") else muts):
        done = set(json.loads(l)["id"] for l in open(OUT)) if os.path.exists(OUT) else set()
        if (not ids and m["id"] not in done) or m["id"] in ids:
            try:
                run(m, using)
            except AssertionError as e:
                print("SKIP", e, flush=True)
