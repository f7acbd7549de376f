#!/usr/bin/env python3
"""Rewrites the list of disagreements in ../DESIGN.md from ../MANIFEST.json and ../properties.jsonl."""
import json, os, re
here = os.path.dirname(os.path.abspath(__file__))
path = os.path.join(here, "..", "DESIGN.md")
props = {p["id"]: p for p in map(json.loads, open(os.path.join(here, "..", "properties.jsonl")))}
out = []
for c in json.load(open(os.path.join(here, "..", "MANIFEST.json")))["claims"]:
    r = [t for t in c["theorems"] if t.endswith("_refuted")]
    if not r: continue
    note = re.sub(r"^REFUTED( as stated)?( \(see the _refuted theorem\))?[:.]? *", "", c["note"])
    out.append("* **%s** %s (%s). %s" % (c["property"], props[c["property"]]["title"], ", ".join("`%s`" % t for t in r), note))
s = open(path).read()
a, b = s.index("<!-- disagreements -->"), s.index("<!-- end -->")
open(path, "w").write(s[:a] + "<!-- disagreements -->\n" + "\n".join(out) + "\n" + s[b:])
print(len(out), "disagreements")
