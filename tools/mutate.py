#!/usr/bin/env python3
# Tries edits of the model in a scratch copy and reports which theorems of P_*.v they break.
# usage: mutate.py BASE WORK MUTATIONS.json RESULTS.jsonl
# BASE is a copy of rocq/ with a Makefile, fully built and with .vos files.
# A mutation is {id, definition, edit, claim, edits: [[file, old text, new text], ...]}.
# Every affected file is checked on its own (coqc -vok) against the interfaces of the others
# (coqc -vos). Proofs that fail are replaced by Admitted and the file is checked again. A theorem
# fails when its proof in BASE uses, through any number of lemmas, one that was admitted. Files are
# checked nearest first, until a theorem of a property named in the claim has failed.
import json, os, re, shutil, subprocess, sys
from concurrent.futures import ThreadPoolExecutor
base, work, muts, results = sys.argv[1:5]
JOBS = int(os.environ.get("MUT_JOBS", "2"))
STEP = int(os.environ.get("MUT_STEP", "30"))  # seconds for one sentence
LIMIT = int(os.environ.get("MUT_TIMEOUT", "240"))
HEAD = re.compile(r"^\s*(?:#\[\w+\]\s*)?(?:Local\s+|Global\s+)?(Lemma|Theorem|Example|Corollary|Definition|Fixpoint|Record|Inductive|Ltac|Notation|Fact|Instance|Remark)\s+(\w[\w']*)", re.M)
PROOF = ("Lemma", "Theorem", "Example", "Corollary", "Fact", "Remark")

def sh(cmd):
    p = subprocess.run(cmd, shell=True, stdout=subprocess.PIPE, stderr=subprocess.STDOUT, text=True)
    return p.returncode, p.stdout

files = [f for f in os.listdir(f"{base}/theories") if f.endswith(".v")]
names = {f[:-2] for f in files}
deps = {}
for f in files:
    src = open(f"{base}/theories/{f}").read()
    d = set()
    for m in re.finditer(r"From Verif Require(?: Import| Export)?\b([^.]*)\.", src): d |= set(m.group(1).split())
    deps[f[:-2]] = d & names
order, seen = [], set()
def visit(n):
    if n in seen: return
    seen.add(n)
    for d in sorted(deps[n]): visit(d)
    order.append(n)
for n in sorted(names): visit(n)

# what every theorem of P_*.v rests on, from Print All Dependencies in BASE: theorem -> {(file, name)}
theorems, rests = [], {}
for n in sorted(names):
    if n.startswith("P_"):
        theorems += [(n, t) for t in re.findall(r"^Theorem (\w+)", open(f"{base}/theories/{n}.v").read(), re.M)]
dep = f"{base}/deps"
if not os.path.exists(dep):
    os.makedirs(dep)
    with open(f"{dep}/d.v", "w") as o:
        o.write("".join(f"From Verif Require {n}.\n" for n in sorted({n for n, _ in theorems})))
        o.write("Set Printing Depth 4. Set Printing Width 400.\n")
        for n, t in theorems: o.write(f'Redirect "{t}" Print All Dependencies {n}.{t}.\n')
    rc, out = sh(f"cd {dep} && coqc -q -Q ../theories Verif d.v")
    if rc: shutil.rmtree(dep); sys.exit(out[-500:])
for n, t in theorems:
    rests[t] = {(n, t)}
    for line in open(f"{dep}/{t}.out"):
        m = re.match(r"(?:Verif\.)?(\w+)\.([\w']+)\s*(?::|$)", line)
        if m and m.group(1) in names: rests[t].add((m.group(1), m.group(2)))

def line_in_proof(path, line):
    """replace the proof around the line by Admitted; the lemma's name or None"""
    s = open(path).read()
    pos = sum(len(l) + 1 for l in s.split("\n")[:line - 1])
    eol = s.find("\n", pos); eol = len(s) if eol < 0 else eol
    hs = [m for m in HEAD.finditer(s) if m.start() <= eol]
    hs = [m for m in hs if m.group(1) not in ("Ltac", "Notation")]
    if not hs or hs[-1].group(1) not in PROOF: return None
    m = hs[-1]
    end = re.compile(r"\b(Qed|Defined)\.").search(s, m.end())
    pr = re.compile(r"\bProof\b[^.]*\.").search(s, m.end())
    if not end or not pr or pr.start() > end.start(): return None
    s = s[:pr.start()] + "Admitted." + "\n" * s[pr.start():end.end()].count("\n") + s[end.end():]
    open(path, "w").write(s)
    return m.group(2)

def vok(n):
    """check one file; returns (admitted lemmas, problem)"""
    path, admitted = f"{work}/theories/{n}.v", []
    for step in range(400):
        rc, out = sh(f"cd {work}/theories && timeout {LIMIT} coqc -q -set 'Default Timeout={STEP}' -Q . Verif -vok {n}.v")
        if rc == 0: return admitted, None
        m = re.search(r'line (\d+), characters [\d-]+:\s*\nError', out)
        if m: line = int(m.group(1))
        else:
            _, o = sh(f"cd {work}/theories && timeout {LIMIT} stdbuf -o0 coqc -q -set 'Default Timeout={STEP}' -Q . Verif -vok -time {n}.v")
            c = re.findall(r"^Chars (\d+) - (\d+)", o, re.M)
            if not c: return admitted, f"{n}: {out[-300:]}"
            b = open(path, "rb").read()[:int(c[-1][1]) + 2]
            line = b.count(b"\n") + 1
        name = line_in_proof(path, line)
        if name is None: return admitted, f"{n}.v:{line} is not inside a proof: {out[-300:]}"
        admitted.append(name)
    return admitted, f"{n}: too many failures"

def closure(admitted):
    """the theorems of P_*.v that use one of the lemmas"""
    bad = set(admitted)
    return sorted(t for t in rests if rests[t] & bad)

def enough(mut, failed):
    """a theorem of a property named in the claim failed, other than a refutation or a part"""
    ids = set(re.findall(r"C\d\d", mut["claim"]))
    return any(t[:3] in ids and not t.endswith(("_refuted", "_partial")) for t in failed)

def run(mut):
    if os.path.exists(work): shutil.rmtree(work)
    sh(f"cp -a {base} {work}")
    edited = set()
    for file, old, new in mut["edits"]:
        f = f"{work}/theories/{file}"
        s = open(f).read()
        if s.count(old) != 1: return dict(mut, error=f"{file}: old text occurs {s.count(old)} times: {old[:60]}")
        open(f, "w").write(s.replace(old, new))
        edited.add(file[:-2])
    affected = []
    for n in order:
        if n in edited or deps[n] & set(affected): affected.append(n)
    admitted, problems = [], []
    for n in affected:
        for step in range(40):
            rc, out = sh(f"cd {work}/theories && timeout {LIMIT} coqc -q -set 'Default Timeout={STEP}' -Q . Verif -vos {n}.v")
            if rc == 0: break
            m = re.search(r'line (\d+), characters [\d-]+:\s*\nError', out)
            name = m and line_in_proof(f"{work}/theories/{n}.v", int(m.group(1)))
            if not name: return dict(mut, problem=f"{n}.v does not compile: {out[-400:]}", failed=[], admitted=admitted)
            admitted.append((n, name))
    # nearest files first
    dist = {n: 0 for n in edited}
    for n in affected:
        if n not in dist: dist[n] = 1 + min(dist[d] for d in deps[n] if d in dist)
    todo = sorted(affected, key=lambda n: (dist[n], os.path.getsize(f"{work}/theories/{n}.v")))
    failed, checked = [], 0
    while todo and not enough(mut, failed):
        batch, todo = todo[:2 * JOBS], todo[2 * JOBS:]
        with ThreadPoolExecutor(JOBS) as ex:
            for n, (a, p) in zip(batch, ex.map(vok, batch)):
                admitted += [(n, x) for x in a]
                if p: problems.append(p)
        checked += len(batch)
        failed = closure(admitted)
    return dict(mut, failed=failed, admitted=[f"{n}.{x}" for n, x in admitted],
                checked=f"{checked} of {len(affected)} affected files", problem="; ".join(problems) or None)

done = set()
if os.path.exists(results): done = {json.loads(l)["id"] for l in open(results)}
for mut in json.load(open(muts)):
    if mut["id"] in done: continue
    r = run(mut)
    with open(results, "a") as o: o.write(json.dumps(r) + "\n")
    print(mut["id"], "failed:", r.get("failed"), "admitted:", r.get("admitted", [])[:8], "problem:", r.get("problem") or r.get("error"), flush=True)
