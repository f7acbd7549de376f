#!/usr/bin/env python3
"""Runs Print Assumptions on every theorem named in ../MANIFEST.json (after a build) and writes ../ASSUMPTIONS.md."""
import json, os, re, subprocess, glob, tempfile
here = os.path.dirname(os.path.abspath(__file__))
root = os.path.join(here, "..", "rocq")
names = [t for c in json.load(open(os.path.join(here, "..", "MANIFEST.json")))["claims"] for t in c["theorems"]]
names = list(dict.fromkeys(names))
mods = [os.path.basename(f)[:-2] for f in sorted(glob.glob(os.path.join(root, "theories", "Props*.v")))]
d = tempfile.mkdtemp()
src = "From Coq Require Import String.\nFrom Verif Require Import " + " ".join(mods) + ".\n"
for n in names:
    src += 'Eval compute in "@@%s"%%string.\nPrint Assumptions %s.\n' % (n, n)
open(os.path.join(d, "A.v"), "w").write(src)
out = subprocess.run(["coqc", "-Q", os.path.join(root, "theories"), "Verif", os.path.join(d, "A.v")], capture_output=True, text=True)
assert out.returncode == 0, out.stderr
sets = {}
for part in out.stdout.split('"@@')[1:]:
    n = part.split('"')[0]
    body = part.split("\n", 2)[2]
    ax = tuple(sorted(set(re.findall(r"^([A-Za-z_][\w.']*)\s*(?::|$)", body, re.M)) - {"Axioms"})) if "Closed under" not in body else ()
    sets[n] = ax
assert set(sets) == set(names)
groups = {}
for n in names: groups.setdefault(sets[n], []).append(n)
with open(os.path.join(here, "..", "ASSUMPTIONS.md"), "w") as o:
    o.write("# Print Assumptions of every theorem in MANIFEST.json\n\nWritten by tools/gen_assumptions.py.\n")
    for k, (ax, ns) in enumerate(sorted(groups.items(), key=lambda g: len(g[0]))):
        o.write("\n## Group %d: %s (%d theorems)\n\n" % (k, "no axioms (closed under the global context)" if not ax else "%d entries" % len(ax), len(ns)))
        if ax: o.write("Axioms and primitives: " + ", ".join("`%s`" % a for a in ax) + "\n\n")
        o.write("Theorems: " + ", ".join(ns) + "\n")
print(len(names), [(len(a), len(n)) for a, n in groups.items()])
