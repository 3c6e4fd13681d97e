"""Writes rocq/theories/PairData.v from the three tables of pair-production probabilities
in /repo/optika/sensors/materials/_ramanathan_2020 (energies in hundredths of an eV,
probabilities in hundred-thousandths; both are exact)."""
import pathlib
from fractions import Fraction

source = pathlib.Path("/repo/optika/sensors/materials/_ramanathan_2020")
target = pathlib.Path(__file__).parent.parent / "rocq/theories/PairData.v"


def whole(text, scale):
    value = Fraction(text) * scale
    assert value.denominator == 1, text
    return str(value.numerator)


def rows(name):
    return [line.split() for line in open(source / name) if line.strip()]


tables = [rows(f"p{t}K.dat") for t in (0, 100, 300)]
assert len({len(t) for t in tables}) == 1
lines = []
for row in zip(*tables):
    assert len({r[0] for r in row}) == 1
    lists = ["[" + ";".join(whole(p, 100000) for p in r[1:]) + "]" for r in row]
    lines.append("(" + whole(row[0][0], 100) + ", " + ", ".join(lists) + ")")
size = 100
chunks = [lines[i:i + size] for i in range(0, len(lines), size)]
out = '''(** optika/sensors/materials/_ramanathan_2020/p0K.dat, p100K.dat and p300K.dat, written by
    tools/mkpairs.py: the energy in hundredths of an eV and the probabilities of 1, 2, ... 20
    pairs in hundred-thousandths at 0 K, 100 K and 300 K.  (The numbers are those of the
    files; [np.loadtxt] rounds them to the nearest floating-point numbers.) *)
From Coq Require Import List ZArith.
Import ListNotations.
Open Scope Z_scope.

Definition data_row := (Z * list Z * list Z * list Z)%type.
'''
for i, chunk in enumerate(chunks):
    out += f"Definition pair_data_{i} : list data_row := [\n" + ";\n".join(chunk) + "].\n"
out += "Definition pair_data : list data_row :=\n  " + " ++ ".join(f"pair_data_{i}" for i in range(len(chunks))) + ".\n"
target.write_text(out)
