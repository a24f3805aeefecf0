#!/usr/bin/env python3
"""Seeded-bug testing that stops at the first proof which matters.

usage: seed_quick.py MUTANTS.json [id ...]      (SEED_BASE, SEED_WORK: other directories)

Like seed.py, but the build of a mutant stops as soon as a proof fails on which
a property theorem depends, through the references that coqc left in the .glob
files of the base.  The theorems recorded as failed are the ones that depend on
the first such proof; there may be more.  A mutant that survives has been built
completely.
"""
import collections, json, os, re, subprocess, sys, time
sys.path.insert(0, os.path.dirname(os.path.abspath(__file__)))
import seed
from seed import sh, cheat, BASE, WORK, OUT, USING

def graph():
    users, props = collections.defaultdict(set), {}
    T = BASE + "/theories"
    for f in sorted(os.listdir(T)):
        if not f.endswith(".glob"): continue
        mod = f[:-5]
        marks, refs = [], []
        for l in open(f"{T}/{f}"):
            m = re.match(r"(\w+) (\d+):\d+ (\S+) (\S+)$", l)
            if m and m.group(1) in ("prf", "def", "thm", "ind", "rec", "constr", "proj", "scheme"):
                if m.group(1) in ("prf", "def", "thm"): marks.append((int(m.group(2)), m.group(4)))
                continue
            m = re.match(r"R(\d+):\d+ Verif\.(\w+) (\S+) (\S+) (\w+)$", l)
            if m and m.group(5) in ("def", "thm", "prf"): refs.append((int(m.group(1)), m.group(2) + "." + m.group(4)))
        marks.sort(); refs.sort()
        i = -1
        for pos, r in refs:
            while i + 1 < len(marks) and marks[i + 1][0] <= pos: i += 1
            if i >= 0: users[r].add(f"{mod}.{marks[i][1]}")
        if mod.startswith("Prop"):
            for n in re.findall(r"Print Assumptions ([\w']+)\.", open(f"{T}/{mod}.v").read()): props[f"{mod}.{n}"] = n
    return users, props

def depend(users, props, start):
    seen, todo = {start}, [start]
    while todo:
        for y in users.get(todo.pop(), ()):
            if y not in seen: seen.add(y); todo.append(y)
    return sorted(props[x] for x in seen if x in props)

def run(mut, using, users, props):
    t0 = time.time()
    sh(f"mkdir -p {WORK} && rsync -a --delete {BASE}/ {WORK}/") if os.path.exists("/usr/bin/rsync") else sh(f"rm -rf {WORK} && cp -a {BASE} {WORK}")
    path = f"{WORK}/theories/{mut['file']}"
    s = open(path).read()
    if s.count(mut["old"]) != 1:
        print("SKIP", mut["id"], s.count(mut["old"]), flush=True); return
    open(path, "w").write(s.replace(mut["old"], mut["new"]))
    failed, blocked, broken, invalid = [], [], [], False
    everything = " ".join(f"theories/{f}o" for f in sorted(os.listdir(WORK + "/theories")) if f.startswith("Prop") and f.endswith(".v"))
    # first the files which use the definition
    me = f"{mut['file'][:-2]}.{mut['definition']}"
    near = {x.split(".")[0] for x in users.get(me, ())} - {mut["file"][:-2]}
    queue = [x + "o" for x in open(BASE + "/_CoqProject").read().split() if x.endswith(".v") and x[9:-2] in near]
    queue.append(everything)
    for rnd in range(200):
        targets = queue[0]
        try:
            rc, out = sh(f"ulimit -v 6500000; nice -n 10 make -j2 {targets} 2>&1", WORK, timeout=2500)
        except subprocess.TimeoutExpired:
            blocked.append("timeout"); break
        if rc == 0:
            queue.pop(0)
            if not queue: break
            continue
        errs = re.findall(r'File "\./theories/(\w+\.v)", line (\d+), characters [\d-]+:\nError', out)
        if not errs: blocked.append(out[-300:]); break
        stop = True
        for f, ln in sorted(set(errs)):
            if f == mut["file"]: invalid = True
            kind, name, ok = cheat(f"{WORK}/theories/{f}", int(ln) - 1, using)
            failed.append(f"{f[:-2]}.{name}")
            if ok: stop = False
            else: blocked.append(f"{f[:-2]}.{name}")
            for p in depend(users, props, f"{f[:-2]}.{name}"):
                if p not in broken: broken.append(p)
        if invalid or broken or stop: break
    if invalid:
        print("INVALID", mut["id"], mut["old"], "=>", mut["new"], flush=True)
        open(OUT + ".invalid", "a").write(mut["id"] + "\n"); return
    ex = [x for x in failed if re.match(r"Prop\w*\.", x) and x.split(".")[1] not in broken]
    rec = dict(id=mut["id"], definition=f"{mut['file'][:-2]}.{mut['definition']}", edit=f"{mut['old'].strip()}  =>  {mut['new'].strip()}",
               breaks=mut["breaks"], failing_proofs=failed, property_theorems_failed=broken, examples_failed=ex, blocked=blocked,
               seconds=round(time.time() - t0), first_only=True)
    open(OUT, "a").write(json.dumps(rec) + "\n")
    print(mut["id"], "failed:", failed[:4], "props:", len(broken), broken[:4], "blocked:", blocked[:2], rec["seconds"], "s", "" if broken else "SURVIVED", flush=True)

if __name__ == "__main__":
    muts, using, ids = json.load(open(sys.argv[1])), json.load(open(USING)), sys.argv[2:]
    users, props = graph()
    for m in muts:
        done = set(json.loads(l)["id"] for l in open(OUT))
        if os.path.exists(OUT + ".invalid"): done |= set(open(OUT + ".invalid").read().split())
        if (not ids and m["id"] not in done) or m["id"] in ids: run(m, using, users, props)
