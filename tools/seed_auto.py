#!/usr/bin/env python3
"""Makes mutants for the definitions of the model, by rule.

usage: seed_auto.py PER_DEFINITION SEED FIRST_ID > MUTANTS.json     (SEED_BASE: the sources)

Two mutants of one definition come from different rules where possible.  Definitions that already have
as many mutants in seeded/round*.json are left out.
"""
import glob, json, os, random, re, sys
sys.path.insert(0, os.path.dirname(os.path.abspath(__file__)))
import seed_quick
root = os.path.dirname(os.path.dirname(os.path.abspath(__file__)))
BASE = seed_quick.BASE
per, seed, first = int(sys.argv[1]), int(sys.argv[2]), int(sys.argv[3])
random.seed(seed)
LEFT_OUT = {"Base", "Heap", "Located", "Radix", "Prog", "Codec"}
RULES = [
  ("less", r" <\? ", " <=? "), ("less", r" <=\? ", " <? "), ("and", r" && ", " || "), ("or", r" \|\| ", " && "),
  ("negb", r"negb \(", "("), ("true", r"\btrue\b", "false"), ("false", r"\bfalse\b", "true"),
  ("number", r"(?<![\w.%\]'-])(\d+)(?![\w.])", lambda m: str(int(m.group(1)) + 1)),
  ("plus", r" \+ 1\b", ""), ("first", r"\bfirstn\b", "skipn"), ("skip", r"\bskipn\b", "firstn"), ("rev", r"\brev ([a-z]\w*)\b", r"\1"),
  ("rev2", r"\brev \(", "("), ("exists", r"\bexistsb\b", "forallb"), ("forall", r"\bforallb\b", "existsb"), ("fst", r"\bfst\b", "snd"), ("snd", r"\bsnd\b", "fst"),
  ("swap", r"\b([a-z]\w*) \+\+ ([a-z]\w*)\b", r"\2 ++ \1"), ("if", r"\bif ([\w' ]+) then", r"if negb (\1) then"),
  ("if2", r"\bif (\w[\w' ]* (?:=\?|<\?|<=\?) [\w' ]+) then", r"if negb (\1) then"), ("eqb", r"\bif (bytes_eqb [\w' ]+) then", r"if negb (\1) then"),
  ("ok", r"\bOk \[\]", "Err EEof"), ("cons", r"\b([a-z]\w*) :: ([a-z]\w*'?)(?=[\s);,])(?! *=>)", r"\2"), ("string", r'lit "([^"]+)"', lambda m: 'lit "' + m.group(1)[:-1] + '"'),
  ("byte", r"\bx([0-9a-f])([0-8])\b", lambda m: "x" + m.group(1) + "%x" % (int(m.group(2)) + 1)),
  ("guard", r"rlet _ := [^\n]*? in\b", ""), ("minus", r" - (\w+)\b", r" + \1"), ("max", r"\bZ\.max\b", "Z.min"), ("min", r"\bZ\.min\b", "Z.max"),
]
done = {}
for f in glob.glob(root + "/seeded/round*.json"):
    for m in json.load(open(f)):
        k = (m["file"], m["definition"].split(".")[-1]); done[k] = done.get(k, 0) + 1
users, props = seed_quick.graph()
out = []
for path in sorted(glob.glob(BASE + "/theories/*.v")):
    mod = os.path.basename(path)[:-2]
    if re.search("Facts|^Prop|^Spec|Example", mod) or mod in LEFT_OUT: continue
    src = open(path).read()
    clean = re.sub(r"\(\*.*?\*\)", lambda m: re.sub(r"[^\n]", "~", m.group(0)), src, flags=re.S)
    starts = [(m.start(), m.group(1)) for m in re.finditer(r"^(?:Definition|Fixpoint|with) ([\w']+)", clean, re.M)]
    ends = [m.start() for m in re.finditer(r"^(?:Definition|Fixpoint|with|Section|End|Variable|Inductive|Record|Notation|Open|Import|Lemma|Theorem|Local|Arguments|~~)", clean, re.M)] + [len(clean)]
    for s, name in starts:
        e = min(x for x in ends if x > s)
        body0 = clean.find(":=", s, e)
        if body0 < 0: continue
        cand = []
        for rule, pat, rep in RULES:
            for m in re.finditer(pat, clean[body0:e]):
                a, b = body0 + m.start(), body0 + m.end()
                line = clean[clean.rfind("\n", 0, a) + 1:clean.find("\n", a)]
                if "EMsg" in line and rule in ("string",): continue
                cand.append((rule, a, b, m.expand(rep) if isinstance(rep, str) else rep(m)))
        random.shuffle(cand)
        want, used = per - done.get((mod + ".v", name), 0), set()
        for rule, a, b, new in cand:
            if want <= 0: break
            if rule in used: continue
            lo, hi = a, b
            while src.count(src[lo:hi]) != 1 or hi - lo < 25:
                lo, hi = max(0, lo - 5), min(len(src), hi + 5)
                if lo == 0 and hi == len(src): break
            if src.count(src[lo:hi]) != 1 or hi - lo > 300: continue
            used.add(rule); want -= 1
            ps = sorted(set(re.findall(r"C\d\d", " ".join(seed_quick.depend(users, props, f"{mod}.{name}")))))
            out.append(dict(id=f"S{first + len(out)}", file=mod + ".v", definition=name, old=src[lo:hi], new=src[lo:a] + new + src[b:hi],
                            breaks=f"{', '.join(ps[:8])}{', ...' if len(ps) > 8 else ''}: {name} as in the source"))
json.dump(out, sys.stdout, indent=1)
