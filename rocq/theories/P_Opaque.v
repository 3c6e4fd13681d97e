(** C116: what the bare surface of a chemical lets in. *)
From Coq Require Import Reals Lra List Sorting.Sorted.
From Coquelicot Require Import Coquelicot.
From Verif Require Import TableModel ChemicalModel OpaqueSpec OpaqueProofs OpaqueExamples.
Import ListNotations.
Open Scope R_scope.

(** C116.  If all rows of a table, in the order of their wavelengths, have positive constants, the bare surface of that
    chemical lets some light in and reflects the rest, at every wavelength (of the table or not) and angle, from
    every transparent medium. *)
Theorem C116_partial : forall table, table <> [] -> StronglySorted (fun a b => nk_wavelength a <= nk_wavelength b) table ->
  (forall r, In r table -> 0 < nk_n r /\ 0 < nk_k r) -> forall w n0 c0 s, 0 < w -> 0 < n0 -> 0 < c0 <= 1 ->
  exists r t, surface_shares (chemical_index table) w n0 c0 s = (Some r, Some t) /\ 0 <= r < 1 /\ 0 < t /\ r + t = 1.
Proof. exact table_surface. Qed.
Print Assumptions C116_partial.

(** C116.  So does silicon where it absorbs. *)
Theorem C116_silicon_partial : forall w n0 c0 s, 0 < w -> w < 11199.6 -> 0 < n0 -> 0 < c0 <= 1 ->
  exists r t, surface_shares (chemical_index silicon_table) w n0 c0 s = (Some r, Some t) /\ 0 <= r < 1 /\ 0 < t /\ r + t = 1.
Proof. exact silicon_surface. Qed.
Print Assumptions C116_silicon_partial.

(** C116.  Aluminium arsenide has an index of refraction of zero from 3935.87 to 4350.18 Angstrom in its table, and reflects there
    everything at every angle, although it absorbs. *)
Theorem C116_refuted : forall w n0 c0 s, 3935.87 <= w <= 4350.18 -> 0 < n0 -> 0 < c0 <= 1 ->
  (exists a, absorption arsenide_table w = Some a /\ 0 < a) /\
  surface_shares (chemical_index arsenide_table) w n0 c0 s = (Some 1, Some 0).
Proof. exact arsenide_mirror. Qed.
Print Assumptions C116_refuted.

Example C116_nonvacuous : rows <> [] /\ StronglySorted (fun a b => nk_wavelength a <= nk_wavelength b) rows /\
  (forall r, In r rows -> 0 < nk_n r /\ 0 < nk_k r) /\ 0 < 300 /\ 300 < 11199.6 /\ 0 < 1.5 /\ 0 < 0.5 <= 1 /\
  3935.87 <= 4000 <= 4350.18.
Proof. exact opaque_example. Qed.
