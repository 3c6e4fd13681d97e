(** Theorems on the cell areas of object grids: C63. *)
From Coq Require Import Reals Lra String List.
From Verif Require Import Num NumLemmas CellModel CellSpec CellProofs.
Import ListNotations.
Open Scope R_scope.

(** The product of the wavelength step and the areas of the rectangles. *)
Theorem C63_product : forall g f p fx fy px py w i j k l, separable g f p ->
  rectilinear f fx fy -> rectilinear p px py ->
  cell_area quad_area quad_area g w i j k l
  = (g_wavelength g (S w) - g_wavelength g w)
    * (Rabs (fx (S i) - fx i) * Rabs (fy (S j) - fy j)) * (Rabs (px (S k) - px k) * Rabs (py (S l) - py l)).
Proof. exact rectilinear_cell_area. Qed.
Print Assumptions C63_product.

(** Non-negative for increasing wavelengths, however the grid depends on its indices and
    whatever the area (or solid angle) of a quadrilateral is. *)
Theorem C63_nonneg : forall area_field area_pupil g w i j k l,
  g_wavelength g w <= g_wavelength g (S w) -> 0 <= cell_area area_field area_pupil g w i j k l.
Proof. exact cell_area_nonneg. Qed.
Print Assumptions C63_nonneg.

(** For decreasing wavelengths the cells have negative areas. *)
Theorem C63_decreasing : exists g, (forall w, g_wavelength g (S w) < g_wavelength g w) /\
  cell_area quad_area quad_area g 0 0 0 0 0 < 0.
Proof. exact decreasing_negative. Qed.
Print Assumptions C63_decreasing.

(** The cells do not add up for every grid: the average of the areas of the pupil at the ends
    of a wavelength step is not that of the steps it is made of. *)
Theorem C63_additive_refuted :
  exists (fine coarse : object_grid),
    (forall w i j k l, g_wavelength coarse w = g_wavelength fine (2 * w)%nat /\
       g_field coarse w i j = g_field fine (2 * w)%nat i j /\
       g_pupil coarse w i j k l = g_pupil fine (2 * w)%nat i j k l) /\
    (forall w, g_wavelength fine w < g_wavelength fine (S w)) /\
    total 2 1 1 1 1 (cell_area quad_area quad_area fine) <> total 1 1 1 1 1 (cell_area quad_area quad_area coarse).
Proof. exact varying_refuted. Qed.
Print Assumptions C63_additive_refuted.

(** The cells add up when the field does not depend on the wavelength, nor the pupil on the
    field: to the area inside of the boundary, for cells of any form that are not folded. *)
Theorem C63_additive_partial : forall g f p nw n1 n2 m1 m2, separable g f p ->
  (0 < n1)%nat -> (0 < n2)%nat -> (0 < m1)%nat -> (0 < m2)%nat -> oriented f n1 n2 -> oriented p m1 m2 ->
  total nw n1 n2 m1 m2 (cell_area quad_area quad_area g)
  = (g_wavelength g nw - g_wavelength g 0%nat)
    * Rabs (polygon_area (boundary f n1 n2)) * Rabs (polygon_area (boundary p m1 m2)).
Proof. exact separable_total. Qed.
Print Assumptions C63_additive_partial.

Theorem C63_rectilinear_partial : forall g f p fx fy px py nw n1 n2 m1 m2, separable g f p ->
  rectilinear f fx fy -> rectilinear p px py ->
  monotone n1 fx -> monotone n2 fy -> monotone m1 px -> monotone m2 py ->
  total nw n1 n2 m1 m2 (cell_area quad_area quad_area g)
  = (g_wavelength g nw - g_wavelength g 0%nat)
    * (Rabs (fx n1 - fx 0%nat) * Rabs (fy n2 - fy 0%nat))
    * (Rabs (px m1 - px 0%nat) * Rabs (py m2 - py 0%nat)).
Proof. exact rectilinear_total. Qed.
Print Assumptions C63_rectilinear_partial.

(** Along the pupil they add up for every grid. *)
Theorem C63_pupil_partial : forall area_field g w i j m1 m2, (0 < m1)%nat -> (0 < m2)%nat ->
  (forall w i j, oriented (g_pupil g w i j) m1 m2) ->
  sum_upto m1 (fun k => sum_upto m2 (fun l => cell_area area_field quad_area g w i j k l))
  = (g_wavelength g (S w) - g_wavelength g w)
    * center1 (fun w => Rabs (volume_cell_2d area_field (g_field g w) i j)) w
    * center1 (fun w => center1 (fun i => center1 (fun j =>
        Rabs (polygon_area (boundary (g_pupil g w i j) m1 m2))) j) i) w.
Proof. exact pupil_total. Qed.
Print Assumptions C63_pupil_partial.

(** The checks of the axes keep wavelength, field and pupil apart. *)
Theorem C63_axes : forall sw sf sp aw af1 af2 ap1 ap2,
  check_axes sw sf sp aw (af1, af2) (ap1, ap2) = Some tt ->
  aw <> af1 /\ aw <> af2 /\ aw <> ap1 /\ aw <> ap2 /\ af1 <> ap1 /\ af1 <> ap2 /\ af2 <> ap1 /\ af2 <> ap2.
Proof. exact check_axes_distinct. Qed.
Print Assumptions C63_axes.

Example C63_nonvacuous :
  let f := skewed in
  let p := fun k l : nat => (INR k, - (2 * INR l)) in
  let g := mkGrid (fun w => 3 * INR w) (fun _ => f) (fun _ _ _ => p) in
  separable g f p /\ oriented f 2 2 /\ rectilinear p (fun k => INR k) (fun l => - (2 * INR l)) /\
  monotone 2 (fun l => - (2 * INR l)) /\ polygon_area (boundary f 2 2) = 4 /\
  (check_axes ["w"] ["x"; "y"] ["px"; "py"] "w" ("x", "y") ("px", "py") = Some tt)%string.
Proof.
  cbv zeta; split; [split; reflexivity|]; split; [apply skewed_oriented|]; split; [intros i j; reflexivity|].
  split; [right; intros i _; rewrite S_INR; lra|]; split; [|reflexivity].
  unfold boundary, skewed; cbn; unfold cross2; cbn; lra.
Qed.
