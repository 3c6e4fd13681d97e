"""Writes rocq/theories/ChemicalData.v from the tables of optical constants of silicon, of
its oxide and of aluminium arsenide in /repo/optika/chemicals/nk (the decimal numbers are exact)."""
import pathlib
from fractions import Fraction

source = pathlib.Path("/repo/optika/chemicals/nk")
target = pathlib.Path(__file__).parent.parent / "rocq/theories/ChemicalData.v"


def number(text):
    value = Fraction(text)
    power = 1
    while (value * power).denominator != 1:
        power *= 10
    return f"{(value * power).numerator}#{power}"


out = '''(** optika/chemicals/nk/Si.nk, SiO2_llnl_cxro_rodriguez.nk, Si_palik.nk and AlAs.nk, written
    by tools/mkchem.py: wavelength in Angstrom, index of refraction and extinction coefficient.
    (The numbers are those of the files; [np.loadtxt] rounds them to the nearest
    floating-point numbers.) *)
From Coq Require Import List QArith.
Import ListNotations.
Open Scope Q_scope.

Definition chemical_row := (Q * Q * Q)%type.
'''
size = 100
for name, file in [("silicon", "Si"), ("oxide", "SiO2_llnl_cxro_rodriguez"), ("palik", "Si_palik"), ("arsenide", "AlAs")]:
    rows = [line.split() for line in open(source / f"{file}.nk") if not line.startswith(";")]
    assert all(len(r) == 3 for r in rows)
    lines = ["(" + ", ".join(number(x) for x in r) + ")" for r in rows]
    chunks = [lines[i:i + size] for i in range(0, len(lines), size)]
    for i, chunk in enumerate(chunks):
        out += f"Definition {name}_data_{i} : list chemical_row := [\n" + ";\n".join(chunk) + "].\n"
    out += f"Definition {name}_data : list chemical_row :=\n  " + " ++ ".join(f"{name}_data_{i}" for i in range(len(chunks))) + ".\n"
target.write_text(out)
