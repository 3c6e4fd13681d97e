(** Tabulated functions of wavelength: optika/radiometry/_effective_area.py,
    optika/chemicals/_chemicals.py and the measured materials and rulings. *)
From Coq Require Import Reals List String Ascii Bool.
From Verif Require Import Num.
Import ListNotations.
Open Scope R_scope.
Open Scope opt_scope.

(** [named_arrays.interp] (external) along one axis, as [numpy.interp] (compiled_base.c):
    the last node [j] with [xp[j] <= x] is found by bisection (for non-decreasing [xp] this
    is the linear scan below), and the value is
    [(fp[j+1]-fp[j])/(xp[j+1]-xp[j])*(x-xp[j])+fp[j]]; it is constant outside of the table.
    Here [xp[j] <= x < xp[j+1]], so the divisor is not zero.  An empty table is an error. *)
Fixpoint npinterp_from (x x0 y0 : R) (nodes : list (R * R)) : R :=
  match nodes with
  | [] => y0
  | (x1, y1) :: rest =>
      if Rlt_dec x x1 then (y1 - y0) / (x1 - x0) * (x - x0) + y0
      else npinterp_from x x1 y1 rest
  end.
Definition npinterp (x : R) (nodes : list (R * R)) : option R :=
  match nodes with
  | [] => None
  | (x0, y0) :: rest => Some (if Rlt_dec x x0 then y0 else npinterp_from x x0 y0 rest)
  end.

(** _effective_area.py:37-102, [InterpolatedEffectiveAreaModel]: calibration points along
    [axis_wavelength]; [__call__] is lines 93-102. *)
Definition effective_area (calibration : list (R * R)) (wavelength : R) : option R :=
  npinterp wavelength calibration.

(** optika/rulings/_rulings.py:287-315, [MeasuredRulings.efficiency]: one incidence angle. *)
Definition measured_rulings_efficiency (measurement : list (R * R)) (wavelength : R) : option R :=
  npinterp wavelength measurement.

(** A row of a table of optical constants: wavelength, [n], [k]. *)
Record nk_row := mkNk { nk_wavelength : R; nk_n : R; nk_k : R }.

(** _chemicals.py:101-144, [AbstractChemical.n], for one file: [np.interp] of the complex
    numbers [n + 1j * k] interpolates the real and imaginary parts separately. *)
Definition index_complex (table : list nk_row) (wavelength : R) : option (R * R) :=
  let* n := npinterp wavelength (map (fun r => (nk_wavelength r, nk_n r)) table) in
  let* k := npinterp wavelength (map (fun r => (nk_wavelength r, nk_k r)) table) in
  Some (n, k).
(** _chemicals.py:146-162 *)
Definition index_refraction (table : list nk_row) (wavelength : R) : option R :=
  omap fst (index_complex table wavelength).
Definition wavenumber (table : list nk_row) (wavelength : R) : option R :=
  omap snd (index_complex table wavelength).
(** _chemicals.py:164-178; the wavelength is already in Angstrom. *)
Definition absorption (table : list nk_row) (wavelength : R) : option R :=
  let* k := wavenumber table wavelength in
  odiv (4 * PI * k) wavelength.

(** ** Finding and reading the table *)
Open Scope string_scope.

(** _chemicals.py:67-99, [file_nk]: the name of the file, for one element.  The directory is
    constant. *)
Definition file_nk (formula : string) (is_amorphous : bool) (table : option string) : string :=
  let file := formula in
  let file := match table with Some t => file ++ "_" ++ t | None => file end in
  let file := if is_amorphous then "a-" ++ file else file in
  file ++ ".nk".

(** _chemicals.py:119-125: the number of leading lines that start with a semicolon. *)
Fixpoint skip_header (lines : list string) : nat :=
  match lines with
  | [] => 0
  | line :: rest => if prefix ";" line then S (skip_header rest) else 0
  end.

(** _chemicals.py:127-131: [np.loadtxt] skips that many lines and parses each of the others;
    the parser of a line ([None] is an error) is an argument.  Simplified: [np.loadtxt] also
    ignores blank lines and comments starting with [#]. *)
Fixpoint load_rows (parse : string -> option nk_row) (lines : list string) : option (list nk_row) :=
  match lines with
  | [] => Some []
  | line :: rest => let* r := parse line in let* rs := load_rows parse rest in Some (r :: rs)
  end.
Definition load_table (parse : string -> option nk_row) (lines : list string) : option (list nk_row) :=
  load_rows parse (skipn (skip_header lines) lines).

(** [n] of the contents of a file *)
Definition index_of_file (parse : string -> option nk_row) (lines : list string) (wavelength : R) : option (R * R) :=
  let* table := load_table parse lines in index_complex table wavelength.
