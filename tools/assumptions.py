#!/usr/bin/env python3
"""Print Assumptions of all theorems of the manifest, grouped by the axioms used; rewrites DESIGN.md, section 4.

Needs a finished build in rocq/."""
import glob, json, os, re, subprocess, tempfile
root = os.path.dirname(os.path.dirname(os.path.abspath(__file__)))
mods = {}
for f in sorted(glob.glob(root + "/rocq/theories/*Properties*.v")):
    for n in re.findall(r"^Theorem (C\d\d+\w*)", open(f).read(), re.M):
        mods[n] = os.path.basename(f)[:-2]
src = "From Coq Require Import String.\nFrom Verif Require " + " ".join(sorted(set(mods.values()))) + ".\n"
for n, m in mods.items():
    src += f'Goal True. idtac "== {n}". Abort.\nPrint Assumptions Verif.{m}.{n}.\n'
with tempfile.TemporaryDirectory() as d:
    open(d + "/A.v", "w").write(src)
    out = subprocess.run(["coqc", "-Q", root + "/rocq/theories", "Verif", d + "/A.v"], capture_output=True, text=True)
    assert out.returncode == 0, out.stderr
    out = out.stdout
groups = {}
for block in out.split("== ")[1:]:
    name, rest = block.split("\n", 1)
    axs = [] if "Closed under the global context" in rest else sorted(set(re.findall(r"^([\w.]+)\s*(?::|$)", rest, re.M)) - {"Axioms"})
    groups.setdefault(tuple(axs), []).append(name)
text = "## 4. Trusted base per theorem\n\nCoq 8.16.1's kernel, and the axioms below. Generated by `tools/assumptions.py` from the output of\n`Print Assumptions`. All axioms are those of the standard library.\n"
for axs, names in sorted(groups.items(), key=lambda g: len(g[0])):
    text += "\n" + ("No axioms" if not axs else "Axioms " + ", ".join(f"`{a}`" for a in axs)) + f" ({len(names)} theorems):\n"
    byprop = {}
    for n in names:
        byprop.setdefault(n[:3], []).append(n)
    line = ""
    for n in sorted(names, key=lambda n: (int(re.match(r"C(\d+)", n).group(1)), n)):
        if len(line) + len(n) + 2 > 110:
            text += line.rstrip() + "\n"
            line = ""
        line += n + ", "
    text += line.rstrip(", ") + ".\n"
p = root + "/DESIGN.md"
s = open(p).read()
open(p, "w").write(s[:s.index("## 4. Trusted base per theorem")] + text)
print(len(mods), "theorems,", len(groups), "groups")
