#!/usr/bin/env python3
"""Seeded-bug experiments.  usage: mutate.py mutations.json [--log]

Each mutation {"def","file","old","new","claim","edit"} is applied to a scratch copy
of rocq/.  Proofs that no longer go through are replaced (in the scratch copy only)
by Admitted, one after the other, until everything compiles; the theorems of Props/
whose Print Assumptions then lists such a lemma (or that fail themselves) are the
ones the bug breaks."""
import json, os, re, shutil, subprocess, sys
SRC = "/verif/rocq"
WORK = "/tmp/mut/rocq"

def sh(cmd, t=900):
    return subprocess.run(cmd, shell=True, cwd=WORK, capture_output=True, text=True, timeout=t)

def admit(path, line):
    txt = open(path).read()
    pos = sum(len(l) + 1 for l in txt.split("\n")[:line - 1])
    best = None
    for m in re.finditer(r"^(?:Local |Global )?(Lemma|Theorem|Example|Corollary|Fact|Instance|Remark)\s+(\w+)", txt, re.M):
        if m.start() <= pos + 200 and m.start() <= pos:
            best = m
        elif best is None or m.start() > pos:
            break
    if best is None:
        return None
    q = re.compile(r"\b(Qed|Defined)\.").search(txt, best.start())
    p = re.compile(r"\bProof(?: using[^.]*)?\.").search(txt, best.start())
    if not q or not p or q.start() < p.start() or q.end() <= pos:
        return None
    txt = txt[:p.end()] + " Admitted." + "\n" * txt[p.end():q.end()].count("\n") + txt[q.end():]
    open(path, "w").write(txt)
    return best.group(2)

def run(m):
    if os.path.exists(WORK):
        shutil.rmtree(WORK)
    shutil.copytree(SRC, WORK, symlinks=True)
    edits = m["edits"] if "edits" in m else [m]
    for e in edits:
        p = os.path.join(WORK, "theories", e["file"])
        t = open(p).read()
        if t.count(e["old"]) < 1:
            return None, "pattern not found: " + e["old"]
        n = e.get("nth", 0)
        parts = t.split(e["old"])
        t = e["old"].join(parts[:n + 1]) + e["new"] + e["old"].join(parts[n + 1:])
        open(p, "w").write(t)
    admitted, outputs = [], ""
    for it in range(80):
        r = sh("timeout 800 make -k -j2 2>&1")
        out = r.stdout
        outputs += out
        errs = re.findall(r'^File "\./(theories/[^"]+)", line (\d+), characters [^\n]*\n(?:Error)', out, re.M)
        if r.returncode == 0:
            break
        if not errs:
            return None, "build failed without a locatable error: " + out[-400:]
        for f, ln in {(f, int(l)) for f, l in errs}:
            name = admit(os.path.join(WORK, f), ln)
            if name is None:
                return None, "cannot admit at %s:%s: %s" % (f, ln, out[-300:])
            admitted.append((f, name))
    else:
        return None, "too many iterations"
    # assumptions of every property theorem
    failed = []
    import glob
    for f in sorted(glob.glob(WORK + "/theories/Props/*.v")):
        rel = os.path.relpath(f, WORK)
        names = re.findall(r"^Print Assumptions (\w+)\.", open(f).read(), re.M)
        vo = f + "o"
        src_vo = os.path.join(SRC, rel) + "o"
        if os.path.exists(src_vo) and os.path.getmtime(vo) == os.path.getmtime(src_vo):
            continue
        o = sh("timeout 600 coqc -Q theories Verif " + rel).stdout
        blocks = re.split(r"(?m)^(?=Closed under the global context|Axioms:)", o)[1:]
        if len(blocks) != len(names):
            return None, "cannot match assumptions in " + rel
        adm = {n for _, n in admitted}
        for n, b in zip(names, blocks):
            ax = {a.split(".")[-1] for a in re.findall(r"^([\w.]+)\s*:", b, re.M)}
            if ax & adm or n in adm:
                failed.append(n)
    ex = [n for f, n in admitted if "/Props/" in f and n not in failed]
    return dict(failed=failed, examples=ex, lemmas=[n for _, n in admitted]), None

if __name__ == "__main__":
    # work from a snapshot of the sources and compiled files
    tag = os.path.basename(sys.argv[1]).split(".")[0]
    SRC, WORK = "/tmp/mut/%s/src" % tag, "/tmp/mut/%s/work" % tag
    shutil.rmtree("/tmp/mut/%s" % tag, ignore_errors=True)
    shutil.copytree("/verif/rocq", SRC, symlinks=True)
    muts = json.load(open(sys.argv[1]))
    log = "--log" in sys.argv
    for m in muts:
        try:
            r, err = run(m)
        except subprocess.TimeoutExpired:
            r, err = None, "timeout"
        print("*", m["def"], "|", m["edit"], flush=True)
        if err:
            print("   ERROR", err, flush=True)
            continue
        print("   failed:", r["failed"], "examples:", r["examples"], "lemmas:", r["lemmas"], flush=True)
        want = m["claim"].split(":")[0].split(",")[0].strip()
        if not any(t.startswith(want + "_") for t in r["failed"]):
            print("   !!! claim", want, "NOT detected", flush=True)
        if log:
            with open("/verif/seeded/LOG.jsonl", "a") as f:
                f.write(json.dumps({"definition": m["def"], "file": m.get("file") or [e["file"] for e in m["edits"]],
                                    "edit": m["edit"], "claim_broken": m["claim"], "theorems_failed": r["failed"],
                                    "examples_failed": r["examples"], "lemmas_failed": r["lemmas"],
                                    "theorems_tightened": m.get("tightened", [])}) + "\n")
