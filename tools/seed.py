#!/usr/bin/env python3
"""Test the theorems against wrong programs.

usage: seed.py EDITS.json [LOG.jsonl]
EDITS is a list of {"file", "definition", "old", "new", "edit", "claim"}. For each edit a built copy of
rocq/ is made under /tmp/scratch, the text old is replaced by new in theories/<file>, and the copy is
rebuilt. Each proof that fails is admitted in the copy, and the build repeated, until everything
builds. The theorems that failed are the theorems in *Properties*.v that now rest on an admitted lemma.
"""
import json, os, re, subprocess, sys, glob
BASE = "/tmp/scratch/base"
WORK = "/tmp/scratch/work"
KW = re.compile(r"^\s*(?:Local |Global )?(Lemma|Theorem|Example|Corollary|Fact|Remark|Proposition|Definition|Fixpoint|Instance)\s+([\w']+)")

def sh(cmd, timeout=3000):
    return subprocess.run(cmd, shell=True, capture_output=True, text=True, timeout=timeout)

def prepare():
    os.makedirs("/tmp/scratch", exist_ok=True)
    sh(f"mkdir -p {BASE} && false || (rm -rf {BASE} && mkdir -p {BASE} && cp -a /verif/rocq/. {BASE}/)")
    sh(f"sed -i '/^Print Assumptions/d' {BASE}/theories/*Properties*.v")
    r = sh(f"cd {BASE} && coq_makefile -f _CoqProject -o Makefile && make -j4 2>&1 | tail -3")
    print("base:", r.stdout[-200:])

def errors(out):
    res = {}
    for m in re.finditer(r'File "\./(theories/\w+\.v)", line (\d+), characters (\d+)-\d+:\s*\n(Error[^\n]*(?:\n[^\n]*){0,2})', out):
        res.setdefault(m.group(1), (int(m.group(2)), m.group(4)))
    return res

def admit(path, line):
    src = open(path).read().split("\n")
    i = line - 1
    while i >= 0 and not KW.match(src[i]):
        i -= 1
    if i < 0:
        return None
    name = KW.match(src[i]).group(2)
    # end of the proof
    j = i
    while j < len(src) and not re.search(r"\b(Qed|Defined|Admitted)\.\s*$", src[j]):
        j += 1
    if j >= len(src):
        return None
    text = "\n".join(src[i:j + 1])
    k = text.find("Proof.")
    if k < 0:
        return None
    src[i:j + 1] = (text[:k] + "Proof. Admitted.").split("\n")
    open(path, "w").write("\n".join(src))
    return name

def prop_theorems():
    out = []
    for f in sorted(glob.glob(f"{BASE}/theories/*Properties*.v")):
        mod = os.path.basename(f)[:-2]
        for n in re.findall(r"^Theorem (C\d\d+\w*)", open(f).read(), re.M):
            out.append((mod, n))
    return out

def run(e):
    sh(f"rm -rf {WORK} && cp -a {BASE} {WORK}")
    p = f"{WORK}/theories/{e['file']}"
    s = open(p).read()
    n = s.count(e["old"])
    if n != 1:
        return {"error": f"old text occurs {n} times"}
    open(p, "w").write(s.replace(e["old"], e["new"]))
    admitted, stuck = [], None
    for _ in range(400):
        r = sh(f"cd {WORK} && nice make -k -j2 2>&1", 4000)
        errs = errors(r.stdout)
        if not errs:
            if r.returncode != 0:
                stuck = r.stdout[-400:]
            break
        for f, (line, msg) in errs.items():
            nm = admit(f"{WORK}/{f}", line)
            if nm is None:
                stuck = f"{f}:{line}: {msg}"
                break
            if f"{f[9:-2]}.{nm}" in admitted:
                stuck = f"{f}:{line}: the statement of {nm} is ill-typed: {msg}"
                break
            admitted.append(f"{f[9:-2]}.{nm}")
        if stuck:
            break
    if stuck:
        return {"error": stuck, "admitted": admitted}
    # query the theorems of the rebuilt modules, one process per module
    mods = {}
    for m, n in prop_theorems():
        if os.path.getmtime(f"{WORK}/theories/{m}.vo") > os.path.getmtime(f"{BASE}/theories/{m}.vo"):
            mods.setdefault(m, []).append(n)
    procs = []
    for m, ns in mods.items():
        q = f"From Verif Require {m}.\n" + "\n".join(
            f'Goal True. idtac "@@ {n}". Abort.\nPrint Assumptions Verif.{m}.{n}.' for n in ns) + "\n"
        open(f"{WORK}/Q{m}.v", "w").write(q)
        procs.append(subprocess.Popen(f"cd {WORK} && coqc -Q theories Verif Q{m}.v 2>&1", shell=True,
                                      stdout=subprocess.PIPE, text=True))
    stdout = "".join(p.communicate()[0] for p in procs)
    short = {a.split(".")[1] for a in admitted}
    failed, cur = [], None
    for l in stdout.split("\n"):
        m = re.match(r"@@ (\w+)", l)
        if m:
            cur = m.group(1)
            if cur in short and cur not in failed:
                failed.append(cur)
            continue
        m = re.match(r"([\w'.]+)\s*(:|$)", l)
        if m and m.group(1).split(".")[-1] in short and cur not in failed:
            failed.append(cur)
    return {"failed": failed, "admitted": admitted}

if __name__ == "__main__":
    edits = json.load(open(sys.argv[1]))
    log = sys.argv[2] if len(sys.argv) > 2 else "/verif/seeded/LOG.jsonl"
    prepare()
    for e in edits:
        try:
            r = run(e)
        except Exception as ex:
            r = {"error": repr(ex)}
        rec = {"definition": e["definition"], "edit": e["edit"], "claim": e["claim"],
               "theorems_failed": r.get("failed", []), "theorems_tightened": e.get("tightened", [])}
        if "error" in r:
            rec["note"] = "did not rebuild: " + r["error"]
        print(json.dumps({**rec, "admitted": r.get("admitted", [])}), flush=True)
        if "error" not in r:
            open(log, "a").write(json.dumps(rec) + "\n")
