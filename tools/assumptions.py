#!/usr/bin/env python3
"""Collect the output of every Print Assumptions in theories/T_*.v into ASSUMPTIONS.md (needs a finished build)."""
import re, subprocess, pathlib, collections, tempfile, shutil
root = pathlib.Path(__file__).resolve().parent.parent
th = root / "rocq" / "theories"
groups = collections.defaultdict(list)
for f in sorted(th.glob("T_*.v")):
    names = re.findall(r"^Print Assumptions (\w+)\.", f.read_text(), re.M)
    mod = f.stem
    with tempfile.TemporaryDirectory() as d:
        p = pathlib.Path(d) / "Show.v"
        p.write_text(f"From Verif Require {mod}.\n" + "".join(f'Print Assumptions Verif.{mod}.{n}.\n' for n in names))
        out = subprocess.run(["coqc", "-Q", str(th), "Verif", str(p)], capture_output=True, text=True, check=True).stdout
    blocks = re.split(r"(?m)^(?=Closed under the global context|Axioms:)", out)
    blocks = [b for b in blocks if b.strip()]
    assert len(blocks) == len(names), (f, len(blocks), len(names))
    for n, b in zip(names, blocks):
        ax = () if b.startswith("Closed") else tuple(sorted(set(re.findall(r"(?m)^([\w.]+)\s*(?::|$)", b[len("Axioms:"):]))))
        groups[ax].append(n)
lines = ["# What `Print Assumptions` lists for each theorem", "",
         "Generated by tools/assumptions.py from the `Print Assumptions` at the end of each theorem in rocq/theories/T_*.v.", ""]
for ax in sorted(groups, key=lambda a: (len(a), a)):
    lines += ["## " + ("Closed under the global context (no axiom)" if not ax else ", ".join(f"`{a}`" for a in ax)), "",
              f"{len(groups[ax])} theorems: " + ", ".join(sorted(groups[ax])), ""]
(root / "ASSUMPTIONS.md").write_text("\n".join(lines))
