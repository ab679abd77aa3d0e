#!/usr/bin/env python3
"""Seeded-bug runner.  Usage: mutate.py mutants.json

Each mutant: {"definition": ..., "file": path under theories/, "old": text, "new": text,
              "edit": description, "claim": which English claim becomes false, "expect": ["C01", ...]}
For each one a scratch copy of rocq/ is made outside /verif, the model is edited, and
the property files holding the expected claims are rebuilt with all they depend on.
Proofs that no longer go through are cut out (Admitted, in the scratch copy only) so that
the build can go on; a property theorem has failed when it rests on a cut proof.  Only the
theorems of those files are examined.  Appends to seeded/LOG.jsonl.
"""
import json, os, re, shutil, subprocess, sys

SRC = "/tmp/mut/base"   # snapshot of the last commit, built (see snapshot)
WORK = "/tmp/mut/rocq"

def sh(cmd, **kw):
    return subprocess.run(cmd, shell=True, capture_output=True, text=True, **kw)

def snapshot():
    sh(f"rm -rf {SRC} /tmp/mut/x; mkdir -p {SRC} /tmp/mut/x; git -C /verif archive HEAD rocq | tar x -C /tmp/mut/x; mv /tmp/mut/x/rocq/* {SRC}/")
    r = sh("coq_makefile -f _CoqProject -o Makefile && make -j4", cwd=SRC)
    assert r.returncode == 0, r.stdout[-500:] + r.stderr[-500:]

def prepare():
    os.makedirs("/tmp/mut", exist_ok=True)
    sh(f"rsync -a --delete {SRC}/ {WORK}/") if shutil.which("rsync") else sh(f"rm -rf {WORK}; cp -a {SRC} {WORK}")

START = re.compile(r"^\s*(?:Lemma|Theorem|Corollary|Example|Remark|Fact)\s+([A-Za-z0-9_']+)")

def cut(path, line):
    """Replace the proof containing `line` (1-based) by Admitted."""
    L = open(path).read().split("\n")
    i = line - 1
    s = i
    while s >= 0 and not START.match(L[s]):
        if re.match(r"^\s*(Definition|Fixpoint|Record|Inductive)\b", L[s]):
            return None
        s -= 1
    if s < 0:
        return None
    name = START.match(L[s]).group(1)
    text = "\n".join(L[s:])
    m = re.search(r"\bProof\b[^.]*\.(?=\s)", text)
    q = re.search(r"\b(Qed|Defined)\.", text)
    a = re.search(r"\bAdmitted\.", text)
    if not m or not q or (a and a.start() < q.start()):
        return None
    new = text[:m.start()] + "Admitted." + "\n" * text[m.start():q.end()].count("\n") + text[q.end():]
    open(path, "w").write("\n".join(L[:s]) + ("\n" if s else "") + new)
    return name

def files_of(claims):
    """The property files that state theorems about the given claims."""
    pdir = os.path.join(SRC, "theories/Properties")
    return [f for f in sorted(os.listdir(pdir)) if f.endswith(".v") and
            any(re.search(r"^Theorem " + c + "_", open(os.path.join(pdir, f)).read(), re.M) for c in claims)]

def build(files):
    cuts = []
    targets = " ".join("theories/Properties/" + f + "o" for f in files)
    for _ in range(400):
        r = sh(f"make -k -j3 {targets} 2>&1", cwd=WORK)
        errs = re.findall(r'File "\./(theories/[^"]+)", line (\d+), characters [^\n]*\n(?:Error|[^\n]*\n?Error)', r.stdout)
        if r.returncode == 0:
            return cuts, r.stdout, None
        if not errs:
            return cuts, r.stdout, "unparsed failure: " + r.stdout[-800:]
        for f, ln in dict(errs).items():
            n = cut(os.path.join(WORK, f), int(ln))
            if n is None:
                return cuts, r.stdout, f"not in a proof: {f}:{ln}: " + r.stdout[-800:]
            cuts.append(n)
    return cuts, "", "gave up"

def failed_theorems(cuts, files):
    bad = []
    if not cuts:
        return bad
    # Print Assumptions of every property theorem
    pdir = os.path.join(WORK, "theories/Properties")
    for f in files:
        src = open(os.path.join(pdir, f)).read()
        names = re.findall(r"^(?:Theorem|Example)\s+([A-Za-z0-9_']+)", src, re.M)
        mod = "Verif.Properties." + f[:-2]
        q = f"From Verif.Properties Require {f[:-2]}.\n" + "".join(
            f'Goal True. idtac "@@{n}". Abort.\nPrint Assumptions {mod}.{n}.\n' for n in names)
        open("/tmp/mut/q.v", "w").write(q)
        r = sh("coqc -Q theories Verif /tmp/mut/q.v", cwd=WORK)
        out = r.stdout
        for part in out.split("@@")[1:]:
            n = part.split("\n", 1)[0].strip().strip('"')
            ax = set(re.findall(r"^([A-Za-z0-9_'.]+)\s*:", part, re.M))
            if any(a.split(".")[-1] in cuts for a in ax):
                bad.append(n)
    return bad

def main():
    muts = json.load(open(sys.argv[1]))
    only = set(sys.argv[2:])
    snapshot()
    for k, m in enumerate(muts):
        if only and str(k) not in only:
            continue
        prepare()
        p = os.path.join(WORK, "theories", m["file"])
        s = open(p).read()
        if s.count(m["old"]) < 1:
            print(k, "OLD TEXT NOT FOUND", m["old"]); continue
        open(p, "w").write(s.replace(m["old"], m["new"], m.get("count", 1)))
        files = files_of(m["expect"])
        cuts, out, err = build(files)
        bad = failed_theorems(cuts, files) if not err else []
        thms = [b for b in bad if not re.match(r"C\d+_example", b)]
        exs = [b for b in bad if re.match(r"C\d+_example", b)]
        hit = {b.split("_")[0] for b in thms}
        miss = [e for e in m["expect"] if e not in hit]
        rec = {"definition": m["definition"], "edit": m["edit"], "claim": m["claim"],
               "failed_theorems": thms, "failed_examples": exs, "tightened": m.get("tightened", [])}
        if err:
            rec["note"] = err[:400]
        print(k, m["edit"], "=> failed:", thms, "| MISSED" if miss else "| ok", miss, err or "", flush=True)
        if m.get("note"): rec["note"] = m["note"]
        if not err:
            with open("/verif/seeded/LOG.jsonl", "a") as f:
                f.write(json.dumps(rec) + "\n")

main()
