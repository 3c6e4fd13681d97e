(** Theorems on interpolated tables: C61, C80. *)
From Coq Require Import Reals Lra String List Ascii Sorting.Sorted.
From Verif Require Import Num NumLemmas RayModel SurfaceModel MaterialModel TableModel TableSpec TableProofs.
Import ListNotations.
Open Scope R_scope.

(** ** C61 *)

Theorem C61_effective_area : forall table, TableSpec.increasing table ->
  reproduces table (effective_area table) /\ never_overshoots table (effective_area table).
Proof. intros t S; split; [exact (npinterp_node t S) | exact (npinterp_between t S)]. Qed.
Print Assumptions C61_effective_area.

Theorem C61_measured_rulings : forall table, TableSpec.increasing table ->
  reproduces table (measured_rulings_efficiency table) /\ never_overshoots table (measured_rulings_efficiency table).
Proof. intros t S; split; [exact (npinterp_node t S) | exact (npinterp_between t S)]. Qed.
Print Assumptions C61_measured_rulings.

Theorem C61_measured_mirror : forall table normal (rays : R -> ray), TableSpec.increasing table ->
  (forall w, r_wavelength (rays w) = w) ->
  let f := fun w => mat_efficiency (measured_mirror table) (rays w) normal in
  reproduces table f /\ never_overshoots table f.
Proof. exact mirror_interpolates. Qed.
Print Assumptions C61_measured_mirror.

Theorem C61_chemical : forall table, StronglySorted (fun a b => nk_wavelength a < nk_wavelength b) table ->
  let n := map (fun r => (nk_wavelength r, nk_n r)) table in
  let k := map (fun r => (nk_wavelength r, nk_k r)) table in
  reproduces n (index_refraction table) /\ never_overshoots n (index_refraction table) /\
  reproduces k (wavenumber table) /\ never_overshoots k (wavenumber table).
Proof. exact chemical_interpolates. Qed.
Print Assumptions C61_chemical.

(** Every wavelength in the range of the table is one of the table, or between two
    neighbours, so that the theorems above cover the whole of it. *)
Theorem C61_covered : forall table x, TableSpec.increasing table -> inside table x -> bracketed table x.
Proof. intros t x S; exact (inside_bracketed t x (increasing_nondecreasing t S)). Qed.
Print Assumptions C61_covered.

(** Many of the tables of chemicals repeat a wavelength (where two measurements are joined).
    Then the last of the rows counts, and the index is still between the extreme values of
    the table. *)
Theorem C61_chemical_repeated : forall before r after,
  StronglySorted (fun a b => nk_wavelength a <= nk_wavelength b) (before ++ r :: after) ->
  (forall q, In q after -> nk_wavelength q <> nk_wavelength r) ->
  index_complex (before ++ r :: after) (nk_wavelength r) = Some (nk_n r, nk_k r).
Proof. exact chemical_repeated. Qed.
Print Assumptions C61_chemical_repeated.

Theorem C61_chemical_range : forall table w n k,
  StronglySorted (fun a b => nk_wavelength a <= nk_wavelength b) table ->
  index_complex table w = Some (n, k) ->
  (exists a b, In a table /\ In b table /\ nk_n a <= n <= nk_n b) /\
  (exists a b, In a table /\ In b table /\ nk_k a <= k <= nk_k b).
Proof. exact chemical_range. Qed.
Print Assumptions C61_chemical_range.

(** In particular absorption is never negative. *)
Theorem C61_absorption : forall table w,
  StronglySorted (fun a b => nk_wavelength a <= nk_wavelength b) table ->
  table <> [] -> (forall r, In r table -> 0 <= nk_k r) -> 0 < w ->
  exists a, absorption table w = Some a /\ 0 <= a.
Proof. exact absorption_nonneg. Qed.
Print Assumptions C61_absorption.

(** Outside of the calibrated range the effective area is that of the nearest end. *)
Theorem C61_outside : forall x0 y0 x1 y1 middle x,
  nondecreasing ((x0, y0) :: middle ++ [(x1, y1)]) ->
  (x < x0 -> effective_area ((x0, y0) :: middle ++ [(x1, y1)]) x = Some y0) /\
  (x1 <= x -> effective_area ((x0, y0) :: middle ++ [(x1, y1)]) x = Some y1).
Proof. exact outside_constant. Qed.
Print Assumptions C61_outside.

Example C61_nonvacuous :
  let t := [(100, 1); (200, 5); (400, 3)] in
  TableSpec.increasing t /\ neighbours t (200, 5) (400, 3) /\ inside t 250 /\
  effective_area t 250 = Some (9 / 2) /\ effective_area t 200 = Some 5 /\ effective_area t 500 = Some 3 /\
  index_complex [mkNk 1 1 0; mkNk 2 3 4; mkNk 2 5 6; mkNk 3 7 8] 2 = Some (5, 6).
Proof.
  cbv zeta; split; [repeat constructor; cbn; lra|].
  split; [exists [(100, 1)], []; reflexivity|].
  split; [exists (100, 1), (400, 3); cbn; repeat split; auto; lra|].
  unfold effective_area, index_complex; cbn.
  repeat match goal with |- context [Rlt_dec ?a ?b] => destruct (Rlt_dec a b); try lra end; cbn.
  repeat split; f_equal; try lra; f_equal; lra.
Qed.

(** ** C80 *)

Theorem C80_file_injective : forall f1 a1 t1 f2 a2 t2,
  ~ has_char "_" f1 -> ~ has_char "_" f2 -> ~ has_char "-" f1 -> ~ has_char "-" f2 ->
  file_nk f1 a1 t1 = file_nk f2 a2 t2 -> f1 = f2 /\ a1 = a2 /\ t1 = t2.
Proof. exact file_nk_inj. Qed.
Print Assumptions C80_file_injective.

(** Exactly the header is skipped: the rows are those of the other lines, in order. *)
Theorem C80_header : forall parse header body,
  (forall h, In h header -> exists t, h = String ";" t) ->
  (forall l t, In l body -> l <> String ";" t) ->
  load_table parse (header ++ body) = load_rows parse body /\
  (forall rows, load_rows parse body = Some rows <-> map parse body = map Some rows).
Proof. exact header_and_rows. Qed.
Print Assumptions C80_header.

(** The index of a file is interpolated between the rows of all lines below its header; it is an error if one of them is not a row. *)
Theorem C80_index : forall parse header body w,
  (forall h, In h header -> exists t, h = String ";" t) ->
  (forall l t, In l body -> l <> String ";" t) ->
  (forall rows, map parse body = map Some rows -> index_of_file parse (header ++ body) w = index_complex rows w) /\
  (forall l, In l body -> parse l = None -> index_of_file parse (header ++ body) w = None).
Proof.
  intros parse header body w H B. destruct (header_and_rows parse header body H B) as [E F]. unfold index_of_file. rewrite E. split.
  - intros rows M. rewrite (proj2 (F rows) M). reflexivity.
  - intros l I N. destruct (load_rows parse body) as [rows |] eqn:L; [exfalso | reflexivity].
    pose proof (proj1 (F rows) eq_refl) as M. apply (in_map parse) in I. rewrite M, N in I. apply in_map_iff in I. destruct I as (r & C & _). discriminate.
Qed.
Print Assumptions C80_index.

(** The condition on the names is needed. *)
Theorem C80_file_collision : file_nk "Si_palik" false None = file_nk "Si" false (Some "palik"%string)
  /\ file_nk "a-Si" false None = file_nk "Si" true None.
Proof. split; reflexivity. Qed.
Print Assumptions C80_file_collision.

Example C80_nonvacuous :
  ~ has_char "_" "SiO2" /\ ~ has_char "-" "SiO2" /\ file_nk "SiO2" true (Some "palik"%string) = "a-SiO2_palik.nk"%string /\
  (forall h, In h ["; Optical constants"; ";"]%string -> exists t, h = String ";" t) /\
  (forall l t, In l ["  1.0 2.0 3.0"]%string -> l <> String ";" t).
Proof.
  repeat split; try (cbn; intros H; repeat destruct H as [H | H]; discriminate || contradiction).
  - intros h [<- | [<- | []]]; eexists; reflexivity.
  - intros l t [<- | []]; discriminate.
Qed.
