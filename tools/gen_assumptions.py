#!/usr/bin/env python3
"""Write ASSUMPTIONS.md: what Print Assumptions prints for each property theorem (needs a finished build)."""
import glob, os, re, subprocess
R = "/verif/rocq/theories"
out = ["# Print Assumptions of every property theorem\n", "Generated by tools/gen_assumptions.py.\n", "| Theorem | File | Print Assumptions |", "|---|---|---|"]
for f in sorted(glob.glob(f"{R}/Properties*.v")):
    src = open(f).read()
    names = re.findall(r"^Print Assumptions ([\w']+)\.", src, re.M)
    assert set(names) == set(re.findall(r"^Theorem ([\w']+)", src, re.M)), f
    r = subprocess.run(f"cd {R} && coqc -q -Q . Verif -o /tmp/{os.path.basename(f)}o {f}", shell=True, capture_output=True, text=True)
    assert r.returncode == 0, r.stderr
    bl = [b.strip() for b in re.split(r"(?=^Closed under the global context|^Axioms:)", r.stdout, flags=re.M) if b.startswith(("Closed", "Axioms"))]
    assert len(bl) == len(names)
    for n, b in zip(names, bl): out.append(f"| `{n}` | `{os.path.basename(f)}` | {b} |")
open("/verif/ASSUMPTIONS.md", "w").write("\n".join(out) + "\n")
print(len(out) - 4, {l.split("|")[3].strip() for l in out[4:]})
