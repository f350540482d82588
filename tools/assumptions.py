#!/usr/bin/env python3
"""Writes ASSUMPTIONS.md: what Print Assumptions lists for every theorem of rocq/theories/Props
(the project must be built)."""
import glob, os, re, subprocess
R = "/verif/rocq"
rows, allax = [], set()
for f in sorted(glob.glob(R + "/theories/Props/*.v")):
    names = re.findall(r"^Print Assumptions (\w+)\.", open(f).read(), re.M)
    os.makedirs("/tmp/asm", exist_ok=True)
    o = subprocess.run(["coqc", "-Q", "theories", "Verif", "-o", "/tmp/asm/" + os.path.basename(f) + "o", os.path.relpath(f, R)], cwd=R, capture_output=True, text=True).stdout
    blocks = re.split(r"(?m)^(?=Closed under the global context|Axioms:)", o)[1:]
    assert len(blocks) == len(names), f
    for n, b in zip(names, blocks):
        ax = sorted(set(re.findall(r"^([\w.]+)\s*(?::|$)", b.replace("Axioms:", ""), re.M))) if b.startswith("Axioms") else []
        allax |= set(ax)
        rows.append((os.path.basename(f), n, ax))
with open("/verif/ASSUMPTIONS.md", "w") as o:
    o.write("# Print Assumptions of every property theorem\n\nGenerated by `tools/assumptions.py`. `-` means \"Closed under the global context\".\n\n")
    for a in sorted(allax):
        o.write("* `%s` (standard library)\n" % a)
    o.write("\n| file | theorem | assumptions |\n|---|---|---|\n")
    for f, n, ax in rows:
        o.write("| %s | %s | %s |\n" % (f, n, ", ".join(ax) or "-"))
print(len(rows), "theorems,", sum(1 for r in rows if not r[2]), "closed;", sorted(allax))
