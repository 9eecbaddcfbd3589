#!/usr/bin/env python3
"""Generate the T_*.v files (theorem statements only, each closed by `exact lemma`) from
the marked lemmas of the P_*.v / Q_*.v proof files, so that a statement is written once.

Markers in a proof file X_Foo.v (output T_Foo.v):
  (*@+*) ... (*@-*)        copied verbatim (imports, section headers)
  (*@ C02_name *)          the next Lemma becomes Theorem C02_name, with its doc comment
  (*@ example *)           the next Example is copied with its proof
"""
import re, sys, pathlib

def gen(path):
    src = path.read_text()
    out = ["(** Generated by tools/gen_properties.py from %s: property theorems only. *)" % path.name]
    imported = False
    for m in re.finditer(r"\(\*@(\+\*\)(?P<raw>.*?)\(\*@-\*\)| (?P<name>[\w']+) \*\)(?P<rest>.*?)(?=\(\*@|\Z))", src, re.S):
        if m.group("raw") is not None:
            raw = m.group("raw").strip("\n")
            out.append(raw)
            if not imported:
                out.append("From Verif Require Import %s." % path.stem)
                imported = True
            continue
        name, rest = m.group("name"), m.group("rest")
        if name == "example":
            e = re.search(r"\s*(.*?\b(Qed|Defined)\.)", rest, re.S)
            out.append(e.group(1))
            continue
        e = re.match(r"\s*(\(\*\*.*?\*\)\s*)?Lemma ([\w']+)\s*:(.*?\.)\s*\n\s*Proof\b", rest, re.S)
        if not e:
            sys.exit("%s: bad marker %s" % (path, name))
        doc, lem, stmt = e.group(1) or "", e.group(2), e.group(3)
        out.append("%sTheorem %s :%s\nProof. exact %s. Qed.\nPrint Assumptions %s." % (doc, name, stmt, lem, name))
    return "\n\n".join(out) + "\n"

root = pathlib.Path(__file__).resolve().parent.parent / "rocq" / "theories"
if len(sys.argv) > 1: root = pathlib.Path(sys.argv[1])
for p in sorted(root.glob("[PQ]_*.v")):
    if "(*@ " in p.read_text():
        t = root / ("T_" + p.stem[2:] + ".v")
        new = gen(p)
        if not t.exists() or t.read_text() != new:
            t.write_text(new); print("wrote", t.name)
