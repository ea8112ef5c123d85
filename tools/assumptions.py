#!/usr/bin/env python3
"""Write the list of theorems with what Print Assumptions says at the end of DESIGN.md.
Needs a finished build in rocq/."""
import glob, os, re, subprocess, tempfile
root = os.path.dirname(os.path.dirname(os.path.abspath(__file__)))
theories = root + "/rocq/theories"
MARK = "<!-- the rest of this file is written by tools/assumptions.py -->\n"
res = {}
with tempfile.TemporaryDirectory() as d:
    for f in sorted(glob.glob(theories + "/*.v")):
        ts = re.findall(r"^\s*Theorem (C\d+_\w+)", open(f).read(), re.M)
        if not ts:
            continue
        mod = os.path.basename(f)[:-2]
        q = d + "/q.v"
        open(q, "w").write(f"From Verif Require {mod}.\n" + "".join(
            f'Goal True. idtac "@@{t}". Abort.\nPrint Assumptions Verif.{mod}.{t}.\n' for t in ts))
        out = subprocess.run(["coqc", "-Q", theories, "Verif", q], capture_output=True, text=True, check=True).stdout
        for part in out.split("@@")[1:]:
            name, _, rest = part.partition("\n")
            axioms = [] if "Closed under" in rest else sorted(set(re.findall(r"^([\w.]+)(?: :|$)", rest.replace("Axioms:", ""), re.M)))
            res[name.strip()] = (mod, tuple(axioms))
groups = {}
for t, (mod, ax) in res.items():
    groups.setdefault(ax, {}).setdefault(mod, []).append(t)
out = MARK + "\n## Print Assumptions, theorem by theorem\n"
for ax in sorted(groups):
    out += "\n### " + ("Closed under the global context" if not ax else "Axioms: " + ", ".join(f"`{a}`" for a in ax) + " (all from the standard library)") + "\n\n"
    for mod, ts in sorted(groups[ax].items()):
        out += f"* {mod}: " + ", ".join(f"`{t}`" for t in ts) + "\n"
path = root + "/DESIGN.md"
s = open(path).read()
open(path, "w").write(s[:s.index(MARK)] + out)
print(len(res), "theorems;", {len(a): sum(map(len, g.values())) for a, g in groups.items()})
