#!/usr/bin/env python3
"""Print Assumptions for every theorem named in MANIFEST.json; writes ASSUMPTIONS.md (needs a built tree)."""
import json, re, subprocess, tempfile, pathlib
root = pathlib.Path(__file__).resolve().parent.parent
claims = json.load(open(root / "MANIFEST.json"))["claims"]
mods = sorted((root / "rocq/theories/Props").glob("P_*.v"))
where = {}
for f in mods:
    for n in re.findall(r"^[ ]*(?:Theorem|Lemma|Corollary|Proposition|Fact|Remark)\s+(\S+)", f.read_text(), re.M):
        where.setdefault(n, f.stem)
lines, names = [], []
for c in claims:
    for t in c["theorems"]:
        names.append((c["property"], t))
out = ["From Verif.Props Require " + " ".join(f.stem for f in mods) + "."]
for _, t in names:
    out.append(f"Print Assumptions {where[t]}.{t}.")
with tempfile.TemporaryDirectory() as d:
    p = pathlib.Path(d) / "A.v"
    p.write_text("\n".join(out))
    r = subprocess.run(["coqc", "-Q", str(root / "rocq/theories"), "Verif", str(p)], capture_output=True, text=True)
blocks = re.split(r"(?m)^(?=Closed under|Axioms:|Section Variables:)", r.stdout)
blocks = [b.strip() for b in blocks if b.strip()]
assert len(blocks) == len(names), (len(blocks), len(names), r.stderr[-500:])
res = ["# Print Assumptions of every claimed theorem", "", "Written by tools/assumptions.py.", "", "| property | theorem | assumptions |", "|---|---|---|"]
for (c, t), b in zip(names, blocks):
    res.append(f"| {c} | {where[t]}.{t} | {' '.join(b.split())} |")
(root / "ASSUMPTIONS.md").write_text("\n".join(res) + "\n")
print(len(names), "theorems,", sum(b.startswith("Closed") for b in blocks), "closed under the global context")
