#!/usr/bin/env python3
"""Writes ../MANIFEST.json from the theorem names (Cnn_...) in rocq/theories/Props*.v.
Status: "proved" unless the property has a *_refuted or *_partial theorem, or is overridden in
tools/notes.json ({"Cnn": {"status": ..., "note": ...}})."""
import json, os, re, glob
here = os.path.dirname(os.path.abspath(__file__))
notes = json.load(open(os.path.join(here, "notes.json")))
thms = {}
for f in sorted(glob.glob(os.path.join(here, "../rocq/theories/Props*.v"))):
    for n in re.findall(r"^Theorem ((C\d+)_\w+)", open(f).read(), re.M):
        thms.setdefault(n[1], []).append(n[0])
claims = []
for l in open(os.path.join(here, "../properties.jsonl")):
    i = json.loads(l)["id"]
    ts = thms.get(i, [])
    nt = notes.get(i, {})
    st = nt.get("status")
    if st is None:
        st = "proved" if ts and not any(t.endswith(("_refuted", "_partial")) for t in ts) else "partial"
    note = nt.get("note", "" if ts else "not yet modelled; no theorem yet")
    if any(t.endswith("_refuted") for t in ts) and st == "partial" and not note.startswith("REFUTED"):
        note = "REFUTED as stated (see the _refuted theorem). " + note
    claims.append({"property": i, "status": st, "theorems": ts, "note": note})
with open(os.path.join(here, "../MANIFEST.json"), "w") as o:
    o.write('{"claims":[\n' + ",\n".join(json.dumps(c) for c in claims) + "\n]}\n")
from collections import Counter
print(Counter(c["status"] for c in claims), sum(len(c["theorems"]) for c in claims), "theorems")
