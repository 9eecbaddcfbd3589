#!/usr/bin/env python3
"""Rebuild MANIFEST.json from the theorem names in T_*.v and the notes in tools/notes.json."""
import re, json, pathlib, collections
root = pathlib.Path(__file__).resolve().parent.parent
notes = json.loads((root / "tools" / "notes.json").read_text())
thms = collections.defaultdict(list)
for t in sorted((root / "rocq" / "theories").glob("T_*.v")):
    for n in re.findall(r"^Theorem (C\d\d_[\w']+)", t.read_text(), re.M):
        thms[n[:3]].append(n)
claims = []
for line in (root / "properties.jsonl").read_text().splitlines():
    pid = json.loads(line)["id"]
    st = notes.get(pid)
    if st is None:
        if thms[pid]: print("no note for", pid)
        continue
    claims.append({"property": pid, "status": st["status"], "theorems": thms[pid], "note": st["note"]})
    if st["status"] != "not_applicable" and not thms[pid]: print("no theorem for", pid)
(root / "MANIFEST.json").write_text(json.dumps({"claims": claims}, indent=1) + "\n")
print(len(claims), "claims")
