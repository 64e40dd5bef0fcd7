"""Applies wrong-program edits to a scratch copy of the model and reports which theorems fail.

usage: mutate.py MUTANTS.json [LOG.jsonl]
Each mutant: {"id", "file", "old", "new", "definition", "edit", "claim"}.  A lemma whose proof fails is replaced by
Admitted in the scratch copy, so that Print Assumptions then shows which property theorems depend on it.  With "targets"
(a list of Prop files) only these files and what they need are rebuilt.
"""
import json, os, re, subprocess, sys, shutil
LIMIT = os.environ.get("LIMIT", "300")
SRC = os.environ.get("MUTSRC", "/tmp/mutsrc"); DIR = os.environ.get("MUTDIR", "/tmp/mut")
HEAD = re.compile(r"^\s*(?:Local )?(Theorem|Lemma|Corollary|Example|Fact|Remark|Definition|Fixpoint|Inductive|Record|Instance)\s+(\w+)")

def make(jobs, targets):
    out = subprocess.run(f"cd {DIR} && make -k -j{jobs} {targets} COQC='timeout {LIMIT} coqc' 2>&1", shell=True, capture_output=True, text=True).stdout
    errs = re.findall(r'File "\./(theories/\w+\.v)", line (\d+)[^\n]*\nError', out)
    for f in re.findall(r"\[Makefile:\d+: (theories/\w+)\.vo\] Error 124", out):   # the proof no longer ends
        t = subprocess.run(f"cd {DIR} && timeout {LIMIT} coqc -time -Q theories Verif {f}.v", shell=True, capture_output=True, text=True).stdout
        pos = re.findall(r"^Chars \d+ - (\d+) ", t, re.M)
        if pos: errs.append((f + ".v", str(open(f"{DIR}/{f}.v").read()[:int(pos[-1]) + 2].count("\n") + 1)))
    return errs, out

def admit(path, line):
    """Replace the proof containing the line by Admitted; returns the statement's name or None."""
    src = open(path).read().split("\n")
    i = line - 1
    while i >= 0 and not re.match(r"^\s*(Theorem|Lemma|Corollary|Example|Fact|Remark)\s+\w+", src[i]): i -= 1
    if i < 0: return None
    name = re.match(r"^\s*\w+\s+(\w+)", src[i]).group(1)
    j = i
    while "Proof." not in src[j]: j += 1
    if j > line - 1: return None      # the statement itself no longer typechecks
    k = j
    while not re.search(r"\b(Qed|Defined)\.", src[k]): k += 1
    head = src[j][:src[j].index("Proof.")]
    src[j:k + 1] = [head + "Proof. Admitted."] + [""] * (k - j)
    open(path, "w").write("\n".join(src))
    return name

def run(m, jobs):
    shutil.rmtree(DIR, ignore_errors=True); shutil.copytree(SRC, DIR)
    p = f"{DIR}/theories/{m['file']}"
    s = open(p).read()
    if s.count(m["old"]) < 1: return {"error": "pattern not found"}
    open(p, "w").write(s.replace(m["old"], m["new"], 1 if not m.get("all") else -1))
    subprocess.run(f"cd {DIR} && sed -i '/Assumptions/d' _CoqProject", shell=True)
    subprocess.run(f"cd {DIR} && coq_makefile -f _CoqProject -o Makefile >/dev/null", shell=True)
    only = m.get("targets")
    targets = " ".join(f"theories/{t}.vo" for t in only) if only else ""
    if only:
        lines = open(f"{DIR}/theories/Assumptions.v").read().split("\n")
        keep = [l for l in lines if not l.startswith("Print Assumptions") or l.split()[2].split(".")[0] in only]
        keep = [l if not l.startswith("From Verif") else "From Verif Require " + " ".join(only) + "." for l in keep]
        open(f"{DIR}/theories/Assumptions.v", "w").write("\n".join(keep))
    failed = []
    for _ in range(60):
        errs, out = make(jobs, targets)
        if not errs:
            if re.search(r"make(\[1\])?: \*\*\*", out): return {"failed": failed, "error": "build failed: " + out[-400:]}
            break
        progressed = False
        for f, line in dict(errs).items():
            name = admit(f"{DIR}/{f}", int(line))
            if name is None:
                return {"failed": failed, "error": f"cannot admit at {f}:{line}: " + out[-400:]}
            failed.append(name); progressed = True
        if not progressed: break
    a = subprocess.run(f"cd {DIR} && rm -f theories/Assumptions.vo && coqc -Q theories Verif theories/Assumptions.v", shell=True, capture_output=True, text=True).stdout
    names = re.findall(r"Print Assumptions \w+\.(\w+)\.", open(f"{DIR}/theories/Assumptions.v").read())
    blocks = re.split(r"(?m)^(?=Closed under|Axioms:)", a)[1:]
    dead = [n for n, b in zip(names, blocks) if b.startswith("Axioms")]
    return {"failed": failed, "theorems": dead}

if __name__ == "__main__":
    muts = json.load(open(sys.argv[1])); log = sys.argv[2] if len(sys.argv) > 2 else None
    for m in muts:
        r = run(m, int(os.environ.get("JOBS", "2")))
        line = {"id": m["id"], "definition": m["definition"], "edit": m["edit"], "claim": m["claim"],
                "failed_theorems": r.get("theorems", []), "failed_lemmas": r.get("failed", []), "tightened": []}
        if "error" in r: line["error"] = r["error"]
        print(m["id"], "KILLED" if r.get("theorems") else "SURVIVED" if "error" not in r else "ERROR", len(r.get("theorems", [])), r.get("failed"), r.get("error", ""), flush=True)
        if log: open(log, "a").write(json.dumps(line) + "\n")
