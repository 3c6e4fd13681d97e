"""Try one wrong edit of the model in a scratch copy and report which theorems no longer prove.

usage: mutate.py FILE.v OLD NEW        (OLD must occur exactly once)

A lemma whose proof breaks is admitted in the scratch copy only, so that the theorems
which depend on it can be listed from their Print Assumptions output.
"""
import os, re, shutil, subprocess, sys

SRC = "/verif/rocq"
DST = os.environ.get("SCRATCH", "/tmp/mut/rocq")
HEAD = re.compile(r"^\s*(Lemma|Theorem|Example|Corollary|Fact|Remark|Definition|Fixpoint|Record|Inductive)\s+(\w+)")


def files():
    return [l.strip()[len("theories/"):-2] for l in open(SRC + "/_CoqProject") if l.startswith("theories/")]


def run(file, old, new):
    shutil.rmtree(DST, ignore_errors=True)
    subprocess.run(["cp", "-a", SRC, DST], check=True)
    path = f"{DST}/theories/{file}"
    s = open(path).read()
    if s.count(old) != 1:
        return {"error": f"{s.count(old)} occurrences"}
    open(path, "w").write(s.replace(old, new))
    order = files()
    start = order.index(file[:-2])
    changed = {file[:-2]}
    deps = {}
    for f in order:
        t = open(f"{DST}/theories/{f}.v").read()
        deps[f] = set(w for m in re.findall(r"From Verif Require (?:Import|Export) ([^.]*)\.", t) for w in m.split())
    broken, failed = [], []
    for f in order[start:]:
        if f not in changed and not (deps[f] & changed):
            continue
        changed.add(f)
        out = ""
        for _ in range(200):
            r = subprocess.run(["timeout", "900", "coqc", "-Q", ".", "Verif", f + ".v"], cwd=DST + "/theories",
                               capture_output=True, text=True)
            out = r.stdout + r.stderr
            if r.returncode == 0:
                break
            m = re.findall(r'File "\./%s\.v", line (\d+), characters' % f, out)
            errs = [x for x in re.finditer(r'File "\./%s\.v", line (\d+), characters [^\n]*\nError' % f, out)]
            if not errs:
                broken.append(f + ": " + out[-300:])
                break
            line = int(errs[-1].group(1))
            lines = open(f"{DST}/theories/{f}.v").read().split("\n")
            i = line - 1
            while i >= 0 and not HEAD.match(lines[i]):
                i -= 1
            if i < 0:
                broken.append(f + ": " + out[-300:])
                break
            kind, name = HEAD.match(lines[i]).groups()
            if kind in ("Definition", "Fixpoint", "Record", "Inductive"):
                broken.append(f"{f}.{name} (definition does not type-check) " + out[-300:])
                return {"broken": broken, "failed": failed}
            text = "\n".join(lines[i:])
            mp = re.search(r"\bProof\b", text)
            mq = re.search(r"\bQed\.", text)
            if not mp or not mq:
                broken.append(f"{f}.{name}?")
                break
            head = text[:mp.start()]
            body_line = text[:mp.start()].count("\n") + i
            if line - 1 < body_line and not (line - 1 == body_line):
                # the statement itself fails
                broken.append(f"{f}.{name} (statement)")
                text = text[mq.end():]
            else:
                broken.append(f"{f}.{name}")
                text = head + "Admitted." + text[mq.end():]
            open(f"{DST}/theories/{f}.v", "w").write("\n".join(lines[:i]) + "\n" + text)
        if f.startswith("P_"):
            src = open(f"{SRC}/theories/{f}.v").read()
            names = re.findall(r"^Print Assumptions (\w+)\.", src, re.M)
            blocks = re.split(r"^(?=Axioms:|Closed under)", out, flags=re.M)[1:]
            scr = open(f"{DST}/theories/{f}.v").read()
            pnames = re.findall(r"^Print Assumptions (\w+)\.", scr, re.M)
            bad = set(b.split(".")[1].split(" ")[0] for b in broken if "." in b)
            for n, b in zip(pnames, blocks):
                # an assumption may be printed with its module path
                ax = set(a.split(".")[-1] for a in re.findall(r"^(\w[\w.]*)(?= :|\s*$)", b, re.M))
                if ax & bad or n in bad:
                    failed.append(n)
            for n in names:
                if n not in pnames and n not in failed:
                    failed.append(n)
    return {"broken": broken, "failed": failed}


if __name__ == "__main__":
    r = run(*sys.argv[1:4])
    for b in r.get("broken", []):
        print("broken:", b)
    print("failed theorems:", " ".join(r.get("failed", [])) or r.get("error", "NONE"))
