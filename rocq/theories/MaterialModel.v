(** optika/materials/_materials.py: the simple materials, as used by a surface. *)
From Coq Require Import Reals List.
From Verif Require Import Vec Num RayModel SurfaceModel.
Import ListNotations.
Open Scope R_scope.
Open Scope opt_scope.

(** _materials.py:81-116, [Vacuum] *)
Definition vacuum : material :=
  mkMaterial (fun _ => 1) (fun _ => 0) (fun _ _ => Some 1) false.

(** _materials.py:119-174, [AbstractMirror] and [Mirror] *)
Definition mirror : material :=
  mkMaterial r_index r_attenuation (fun _ _ => Some 1) true.

(** [named_arrays.interp] along one axis, as [numpy.interp]: piecewise linear
    between the nodes, constant outside of them.  The nodes are given as a list
    of (x, y) pairs; an empty list has no value. *)
Fixpoint interp_from (x : R) (x0 y0 : R) (nodes : list (R * R)) : option R :=
  match nodes with
  | [] => Some y0
  | (x1, y1) :: rest =>
      if Rle_dec x x1 then
        let* q := odiv (x - x0) (x1 - x0) in Some (y0 + (y1 - y0) * q)
      else interp_from x x1 y1 rest
  end.
Definition interp (x : R) (nodes : list (R * R)) : option R :=
  match nodes with
  | [] => None
  | (x0, y0) :: rest => if Rle_dec x x0 then Some y0 else interp_from x x0 y0 rest
  end.

(** _materials.py:176-305, [MeasuredMirror]; one incidence angle. *)
Definition measured_mirror (nodes : list (R * R)) : material :=
  mkMaterial r_index r_attenuation (fun r _ => interp (r_wavelength r) nodes) true.

(** _materials.py:308-455, [Glass]: [index_refraction] (429-441) of one wavelength, [None] where a
    division is by zero or the square root is of a negative number. *)
Definition sellmeier_term (b c w2 : R) : option R := odiv (b * w2) (w2 - c).
Definition glass_index (b1 b2 b3 c1 c2 c3 wavelength : R) : option R :=
  let w2 := wavelength * wavelength in
  let* t1 := sellmeier_term b1 c1 w2 in
  let* t2 := sellmeier_term b2 c2 w2 in
  let* t3 := sellmeier_term b3 c3 w2 in
  osqrt (1 + (t1 + t2 + t3)).
(** Simplified: the index of a ray is a real number in the model, so a glass without an index has
    index 0, for which [snells_law] has no result. *)
Definition glass (b1 b2 b3 c1 c2 c3 : R) : material :=
  mkMaterial (fun r => match glass_index b1 b2 b3 c1 c2 c3 (r_wavelength r) with Some n => n | None => 0 end)
             (fun _ => 0) (fun _ _ => Some 1) false.

(** _materials.py:373-412, [Glass.n_bk7] and [Glass.f2], wavelengths in micrometres. *)
Definition n_bk7 (wavelength : R) : option R :=
  glass_index (103961212 / 100000000) (231792344 / 1000000000) (101046945 / 100000000)
    (600069867 / 100000000000) (200179144 / 10000000000) (103560653 / 1000000) wavelength.
Definition f2 (wavelength : R) : option R :=
  glass_index (134533359 / 100000000) (209073176 / 1000000000) (937357162 / 1000000000)
    (997743871 / 100000000000) (470450767 / 10000000000) (111886764 / 1000000) wavelength.
