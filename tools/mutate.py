#!/usr/bin/env python3
"""Try wrong programs: edit the model in a scratch copy and report which theorems no longer hold.

mutate.py mutants.jsonl out.jsonl: each mutant is {"file", "old", "new", "claim"[, "n"]}. The statements
that depend on the edited file are compiled first (coqc -vos), then every proof is run again (coqc
-vok). A property theorem counts as failed if a lemma it uses, by Print Opaque Dependencies on the
unedited development, has a proof or a statement that no longer goes through. Nothing is written
under /verif."""
import json, os, re, subprocess, sys, tempfile
from concurrent.futures import ThreadPoolExecutor

SRC = os.environ.get("MUT_SRC", "/tmp/mutsrc")      # a built copy of /verif/rocq
DST = os.environ.get("MUT_DIR", "/tmp/mut/rocq")
JOBS = int(os.environ.get("MUT_JOBS", "3"))
CLAIM = "MUT_CLAIM" in os.environ                    # look at the theorems of the claim first, and at the others only if none of them fails
FLAGS = '-q -set "Default Proof Using=Type" -Q theories Verif'
KINDS = "Lemma|Theorem|Example|Corollary|Fact|Remark"
HEAD = re.compile(r"^\s*(?:Local\s+|Global\s+|#\[[^\]]*\]\s*)?(%s|Definition|Fixpoint|Instance|Inductive|Scheme|Combined Scheme)\s+([\w']+)" % KINDS, re.M)
PROOF = re.compile(r"\bProof( using [\w ]+)?\.")

def sh(cmd):
    return subprocess.run(cmd, shell=True, capture_output=True, text=True)

def prepare():
    """Statements (.vos) for the unedited development, and the lemmas each property uses."""
    if not os.path.exists(SRC):
        sh(f"cp -a /verif/rocq {SRC}")
    r = sh(f"cd {SRC} && coq_makefile -f _CoqProject -o Makefile && make -j4 && true; if [ ! -e vos_done ]; then rm -f theories/*.vos theories/*.vok; fi; make -j4 vos COQEXTRAFLAGS='-set \"Default Proof Using=Type\"' && touch vos_done")
    assert r.returncode == 0, r.stderr
    path = f"{SRC}/uses.json"
    uses = json.load(open(path)) if os.path.exists(path) else {}
    for f in sorted(os.listdir(f"{SRC}/theories")):
        if not (f.startswith("Properties") and f.endswith(".v")): continue
        names = re.findall(r"^Print Assumptions ([\w']+)\.", open(f"{SRC}/theories/{f}").read(), re.M)
        for n in names:
            if n in uses: continue
            with tempfile.TemporaryDirectory() as d:
                open(f"{d}/uses_.v", "w").write(f"From Verif Require {f[:-2]}.\nPrint Opaque Dependencies {f[:-2]}.{n}.\n")
                out = sh(f"cd {SRC} && coqc -q -Q theories Verif {d}/uses_.v").stdout
            uses[n] = sorted({m for m in re.findall(r"^([\w']+\.[\w']+)\s*:", out, re.M)} | {f"{f[:-2]}.{n}"})
    json.dump(uses, open(path, "w"))
    return uses

def deps():
    out = sh(f"cd {SRC} && coqdep -Q theories Verif theories/*.v").stdout
    d = {}
    for l in out.splitlines():
        m = re.match(r"theories/(\w+)\.vo\b.*?: theories/\w+\.v\b(.*)", l)
        if m: d[m.group(1)] = set(re.findall(r"theories/(\w+)\.vo\b", m.group(2)))
    return d

def order(d, root):
    seen, out = {}, []
    def dep(f):
        if f not in seen:
            seen[f] = False
            seen[f] = f == root or any([dep(g) for g in d[f]])
            if seen[f]: out.append(f)
        return seen[f]
    for f in d: dep(f)
    return out

def coqc(mode, f, secs):
    r = sh(f"cd {DST} && timeout {secs} stdbuf -oL coqc {'-time' if mode == '-vok' else ''} {FLAGS} {mode} theories/{f}.v")
    if r.returncode == 0: return None
    m = re.search(r'File "\./theories/\w+\.v", line (\d+), characters [\d-]+:\s*\nError', r.stdout + r.stderr)
    if m: return int(m.group(1))
    c = re.findall(r"^Chars (\d+) - (\d+)", r.stdout, re.M)
    src = open(f"{DST}/theories/{f}.v", "rb").read()
    pos = int(c[-1][1]) if c else 0
    return src[:pos].count(b"\n") + 1 + (1 if src[pos:pos + 1] == b"\n" else 0)

def cut(f, line, done):
    """Give up the lemma at this line; with done, do not run the proofs before it again."""
    p = f"{DST}/theories/{f}.v"
    s = open(p).read()
    eol = sum(len(l) + 1 for l in s.split("\n")[:line]) - 1
    heads = [m for m in HEAD.finditer(s) if m.start() <= eol]
    if not heads: return None
    h = heads[-1]
    name = f"{f}.{h.group(2)}"
    q = re.compile(r"\b(Qed|Defined)\.").search(s, h.end())
    pr = PROOF.search(s, h.end())
    if not q or not pr or pr.start() > q.start(): return "!" + name
    one = len(re.findall(r"\.\s", s[h.end():pr.start()])) == 1       # a definition by a proof is given up like a lemma
    if h.group(1) not in KINDS.split("|") and not (h.group(1) == "Definition" and one): return "!" + name
    if s.count("\n", 0, pr.start()) + 1 <= line:
        new = s[:pr.start()] + "Admitted." + s[q.end():]
    else:
        new = s[:h.start()] + "\n" + s[q.end():]
        name += " (statement)"
    if done:
        a, b = new[:h.start()], new[h.start():]
        a = re.sub(r"\bProof( using [\w ]+)?\.(?:(?!\bQed\.|\bDefined\.|\bProof\b).)*?\bQed\.", lambda m: "Admitted." + "\n" * m.group(0).count("\n"), a, flags=re.S)
        new = a + b
    open(p, "w").write(new)
    return name

def prove(f):
    """All failing proofs of a file."""
    p = f"{DST}/theories/{f}.v"
    keep = open(p).read()
    failed, stuck = [], []
    while True:
        line = coqc("-vok", f, 600)
        if line is None: break
        r = cut(f, line, True)
        if r is None or r.startswith("!"): stuck.append(f"{f}:{line} {r}"); break
        failed.append(r)
    open(p, "w").write(keep)
    return failed, stuck

def run(m, d, uses):
    assert DST.startswith("/tmp/")
    sh(f"rm -rf {DST}; mkdir -p {os.path.dirname(DST)}; cp -a {SRC} {DST}; rm -f {DST}/theories/*.vo")
    p = f"{DST}/theories/{m['file']}"
    s = open(p).read()
    if s.count(m["old"]) != m.get("n", 1):
        return {"skip": f"{s.count(m['old'])} occurrences"}
    open(p, "w").write(s.replace(m["old"], m["new"]))
    files = order(d, m["file"][:-2])
    failed, stuck = [], []
    def bad():
        gone = {x.split(" ")[0] for x in failed}
        return sorted(n for n, u in uses.items() if gone & set(u))
    def stage(state, proofs):
        for f in state:
            while not stuck:
                line = coqc("-vos", f, 300)
                if line is None: break
                r = cut(f, line, False)
                if r is None or r.startswith("!"): stuck.append(f"{f}:{line} {r}"); break
                failed.append(r)
        if stuck: return
        with ThreadPoolExecutor(JOBS) as ex:
            for x, y in ex.map(prove, proofs):
                failed.extend(x); stuck.extend(y)
    if not CLAIM: stage(files, files)
    else:
        own = m["claim"].split(":")[0] + "_"
        first = {x.split(".")[0] for n, u in uses.items() if n.startswith(own) for x in u} & set(d)
        need, todo = set(), list(first)
        while todo:
            f = todo.pop()
            if f not in need: need.add(f); todo += d[f]
        stage([f for f in files if f in need], [f for f in files if f in first])
        if not stuck and not any(n.startswith(own) for n in bad()):
            stage([f for f in files if f not in need], [f for f in files if f not in first])
    return {"lemmas": failed, "stuck": stuck, "theorems": bad()}

def main():
    uses, d = prepare(), deps()
    muts = [json.loads(l) for l in open(sys.argv[1]) if l.strip()]
    done = set()
    if os.path.exists(sys.argv[2]):
        done = {json.dumps([x["file"], x["old"], x["new"]]) for x in map(json.loads, open(sys.argv[2]))}
    for m in muts:
        if json.dumps([m["file"], m["old"], m["new"]]) in done: continue
        r = run(m, d, uses)
        with open(sys.argv[2], "a") as o: o.write(json.dumps({**m, **r}) + "\n")
        print(m["file"], repr(m["new"])[:60], {k: (v if k != "lemmas" else len(v)) for k, v in r.items()}, flush=True)

main()
