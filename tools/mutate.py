#!/usr/bin/env python3
"""Try wrong programs against the theorems.

mutate.py MUTANTS.json [id ...]   (each mutant: id, file, old, new, definition, edit, breaks; with "targets",
a list of files, only these and what they depend on are rebuilt)

The theories are copied to a scratch directory outside /verif, the edit is applied to the model, and
everything is rebuilt. A lemma or theorem whose proof no longer goes through is cut to Admitted (in the
scratch copy only) so that the build can go on; a property theorem counts as failed when it is cut itself
or when Print Assumptions shows that it rests on a cut lemma. Prints one JSON line per mutant."""
import sys, json, re, subprocess, pathlib, shutil, os
root = pathlib.Path(os.environ.get("ROOT", pathlib.Path(__file__).resolve().parent.parent / "rocq"))
scratch = pathlib.Path(os.environ.get("SCRATCH", "/tmp/mutants"))

def order():
    return [l.strip()[9:] for l in (root / "_CoqProject").read_text().splitlines() if l.startswith("theories/")]

def deps(files):
    out = subprocess.run(["coqdep", "-Q", ".", "Verif"] + files, cwd=scratch, capture_output=True, text=True).stdout
    d = {}
    for l in out.splitlines():
        m = re.match(r"(\S+)\.vo \S+.*?: (.*)", l)
        if m: d[m.group(1) + ".v"] = [x[:-3] + ".v" for x in m.group(2).split() if x.endswith(".vo") and not x.startswith("/")]
    return d

HEAD = re.compile(r"^[ \t]*(?:Local |Global |#\[global\] )?(Lemma|Theorem|Example|Corollary|Fact|Remark|Instance) ([\w']+)", re.M)
def cut(path, line, cuts):
    """replace the proof that contains the error line by Admitted; return the lemma name"""
    src = path.read_text(); lines = src.split("\n")
    pos = sum(len(l) + 1 for l in lines[:line - 1])
    h = [m for m in HEAD.finditer(src) if m.start() <= pos + len(lines[line - 1])]
    if not h: return None
    m = h[-1]
    e = re.compile(r"\b(Qed|Defined|Admitted)\.").search(src, m.start())
    p = re.compile(r"\bProof\b[^.]*\.").search(src, m.start())
    if not e or not p or p.start() > e.start() or e.group(1) == "Admitted": return None
    if pos > e.end() + 200: return None
    body = src[p.start():e.end()]
    path.write_text(src[:p.start()] + "Admitted." + "\n" * body.count("\n") + src[e.end():])
    return m.group(2)

def run(mu):
    if scratch.exists(): shutil.rmtree(scratch)
    shutil.copytree(root / "theories", scratch)
    f = scratch / mu["file"]; s = f.read_text()
    n = s.count(mu["old"])
    if n != 1: return {"error": "pattern found %d times" % n}
    f.write_text(s.replace(mu["old"], mu["new"]))
    files = order(); d = deps(files)
    topo = []
    def visit(x):
        if x in topo: return
        for y in d.get(x, []): visit(y)
        topo.append(x)
    for x in files: visit(x)
    files = topo
    if "targets" in mu:
        need, todo = set(), list(mu["targets"])
        while todo:
            x = todo.pop()
            if x not in need: need.add(x); todo += d.get(x, [])
        files = [x for x in files if x in need]
    dirty, dead, failed, thms, log = {mu["file"]}, set(), [], [], []
    alltaint = []
    for x in files:
        if x != mu["file"] and not any(y in dirty or y in dead for y in d.get(x, [])): continue
        if any(y in dead for y in d.get(x, [])): dead.add(x); continue
        dirty.add(x)
        for _ in range(60):
            limit = os.environ.get("LIMIT", "900")
            r = subprocess.run(["timeout", limit, "coqc", "-Q", ".", "Verif", x], cwd=scratch, capture_output=True, text=True)
            if r.returncode == 0: break
            m = re.findall(r'File "[^"]*", line (\d+)', r.stderr)
            if r.returncode == 124 and os.environ.get("HANG") == "dead": dead.add(x); log.append((x, "timeout")); break
            if r.returncode == 124:
                # a proof that does not terminate any more counts as failed: find the sentence it hangs in
                r = subprocess.run(["timeout", limit, "coqc", "-time", "-Q", ".", "Verif", x], cwd=scratch, capture_output=True, text=True)
                c = re.findall(r"^Chars \d+ - (\d+) ", r.stdout, re.M)
                m = [(scratch / x).read_bytes()[:int(c[-1]) + 2].count(b"\n") + 1] if c else []
            name = cut(scratch / x, int(m[-1]), None) if m else None
            if name is None: dead.add(x); log.append((x, r.stderr[-400:])); break
            failed.append(name)
        if x in dead: continue
        if x.startswith("T_"):
            # split output by Print Assumptions order
            names = re.findall(r"^Print Assumptions ([\w']+)\.", (scratch / x).read_text(), re.M)
            blocks = re.split(r"^(?=Axioms:|Closed under)", r.stdout, flags=re.M)[1:]
            for nm, b in zip(names, blocks):
                ax = set(re.findall(r"^([\w.']+) *(?::|$)", b, re.M)) | set(re.findall(r"^([\w.']+)\s*$", b, re.M))
                if any(a.split(".")[-1] in failed for a in ax): alltaint.append(nm)
            src = (scratch / x).read_text()
            for nm in failed:
                if re.search(r"Theorem %s\b" % re.escape(nm), src) and nm not in alltaint: alltaint.append(nm)
    return {"definition": mu["definition"], "edit": mu["edit"], "breaks": mu["breaks"],
            "failed": sorted(set(alltaint)), "failed_lemmas": failed, "not_buildable": sorted(dead), "log": log}

if __name__ == "__main__":
    mus = json.loads(pathlib.Path(sys.argv[1]).read_text())
    for mu in mus:
        if len(sys.argv) > 2 and mu["id"] not in sys.argv[2:]: continue
        r = run(mu); r["id"] = mu["id"]
        print(json.dumps(r), flush=True)
