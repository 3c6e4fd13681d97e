#!/usr/bin/env python3
"""Writes ASSUMPTIONS.md: the axioms that Print Assumptions lists for each theorem.

Needs a finished build in rocq/.  Each P_*.v is compiled once more in a scratch file."""
import os, re, subprocess, tempfile
root = os.path.join(os.path.dirname(os.path.abspath(__file__)), "..")
th = os.path.join(root, "rocq", "theories")
sets, rows = {}, []
for f in sorted(os.listdir(th)):
    if not re.fullmatch(r"P_\w+\.v", f):
        continue
    with tempfile.TemporaryDirectory() as d:
        src = os.path.join(d, f)
        text = open(os.path.join(th, f)).read()
        open(src, "w").write(text)
        out = subprocess.run(["coqc", "-Q", th, "Verif", src], capture_output=True, text=True)
        assert out.returncode == 0, out.stderr
    names = re.findall(r"^Print Assumptions (\w+)\.", text, re.M)
    parts = re.split(r"^(Axioms:|Closed under the global context)\s*$", out.stdout, flags=re.M)
    got = []
    for k in range(1, len(parts), 2):
        ax = re.findall(r"^([\w.]+)(?: :|$)", parts[k + 1], re.M) if parts[k] == "Axioms:" else []
        got.append(tuple(sorted(ax)))
    assert len(got) == len(names), (f, len(got), len(names))
    for n, a in zip(names, got):
        rows.append((n, a))
        sets.setdefault(a, []).append(n)
order = sorted(sets, key=lambda a: (len(a), a))
with open(os.path.join(root, "ASSUMPTIONS.md"), "w") as o:
    o.write("# Axioms per theorem\n\nWritten by `tools/assumptions.py` from the output of `Print Assumptions`.\n")
    for a in order:
        o.write("\n## " + (", ".join("`%s`" % x for x in a) if a else "Closed under the global context") + "\n\n")
        o.write("\n".join("* " + n for n in sorted(sets[a])) + "\n")
print(len(rows), "theorems,", len(order), "sets of axioms:")
for a in order:
    print(len(sets[a]), a)
