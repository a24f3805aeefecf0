#!/usr/bin/env python3
"""Seeded-bug testing of a definition that few files use.

usage: seed_near.py MUTANTS.json [id ...]      (SEED_BASE: a built copy of rocq/, SEED_WORK)

Like seed_quick.py, without replacing failing proofs: every property file that depends on the edited
file is built with make -k, and the theorems recorded as failed are those which depend, through the
.glob files of the base, on the first proof that failed in each file.
"""
import json, os, re, sys, time
sys.path.insert(0, os.path.dirname(os.path.abspath(__file__)))
import seed_quick
from seed_quick import sh, graph, depend, BASE, WORK, OUT
from seed import enclosing

def closure(users, start):
    seen, todo = {start}, [start]
    while todo:
        for y in users.get(todo.pop(), ()):
            if y not in seen: seen.add(y); todo.append(y)
    return seen

def run(mut, users, props):
    t0 = time.time()
    if not os.path.exists(WORK): sh(f"cp -a {BASE} {WORK}")
    T = f"{WORK}/theories"
    path = f"{T}/{mut['file']}"
    s = open(path).read()
    if s.count(mut["old"]) != 1:
        print("SKIP", mut["id"], s.count(mut["old"]), flush=True); return
    open(path, "w").write(s.replace(mut["old"], mut["new"]))
    me = f"{mut['file'][:-2]}.{mut['definition']}"
    mods = {x.split(".")[0] for x in closure(users, me)}
    targets = " ".join(f"theories/{m}.vo" for m in sorted(mods))
    rc, out = sh(f"ulimit -v 6500000; nice -n 10 timeout 850 make -k -j1 {targets} 2>&1", WORK)
    failed = []
    for f, ln in sorted(set(re.findall(r'File "\./theories/(\w+\.v)", line (\d+), characters [\d-]+:\nError', out))):
        i, kind, name = enclosing(open(f"{T}/{f}").read().split("\n"), int(ln) - 1)
        failed.append(f"{f[:-2]}.{name}")
    th = sorted({t for f in failed for t in depend(users, props, f)})
    ex = [f.split(".")[1] for f in failed if f.startswith("Prop") and "example" in f.lower()]
    invalid = any(f.startswith(mut["file"][:-2] + ".") for f in failed)
    open(path, "w").write(s)
    sh(f"for f in {' '.join(sorted(mods))}; do cp -a {BASE}/theories/$f.* theories/; cp -a {BASE}/theories/.$f.aux theories/ 2>/dev/null; done", WORK)
    row = {"id": mut["id"], "definition": f"{mut['file'][:-2]}.{mut['definition']}", "edit": f"{mut['old']}  =>  {mut['new']}", "breaks": mut["breaks"],
           "failing_proofs": failed, "property_theorems_failed": th, "examples_failed": ex, "blocked": [] if (failed or rc == 0) else [out[-300:]]}
    print(mut["id"], "INVALID" if invalid else "", failed, th[:5], len(th), ex, int(time.time() - t0), "s", "" if th or invalid else "SURVIVED", flush=True)
    if not invalid: open(OUT, "a").write(json.dumps(row) + "\n")

if __name__ == "__main__":
    users, props = graph()
    for m in json.load(open(sys.argv[1])):
        if len(sys.argv) == 2 or m["id"] in sys.argv[2:]: run(m, users, props)
