#!/usr/bin/env python3
"""Change fields of a property: setprop.py C10 statement 'text' [field text ...]; or set the manifest note:
setprop.py --note C10 proved 'text'."""
import sys, json, pathlib
root = pathlib.Path(__file__).resolve().parent.parent
a = sys.argv[1:]
if a[0] == "--note":
    p = root / "tools" / "notes.json"
    n = json.loads(p.read_text()); n[a[1]] = {"status": a[2], "note": a[3]}
    p.write_text("{\n" + ",\n".join(json.dumps(k) + ": " + json.dumps(n[k]) for k in sorted(n)) + "\n}\n")
else:
    p = root / "properties.jsonl"
    ls = [json.loads(l) for l in p.read_text().splitlines()]
    for d in ls:
        if d["id"] == a[0]:
            for k, v in zip(a[1::2], a[2::2]): assert k in d; d[k] = v
    p.write_text("".join(json.dumps(d, ensure_ascii=False) + "\n" for d in ls))
