(** C91: the corners of the field of view and of the entrance pupil. *)
From Coq Require Import Reals List Bool Lra.
From Verif Require Import Vec Num RayModel AngleModel SystemModel SystemSpec SystemExamples CornerModel CornerSpec CornerProofs CornerExamples.
Import ListNotations.
Open Scope R_scope.

(** Missing for the full claim: a wavelength assigned after the stop rays have been cached.
    [b] chooses between the lower left and the upper right corner. *)
Theorem C91_corner_partial : forall calc sys w l b g, never_set l ->
  denormalize_grid sys (calc w) (mkGrid w (sign_of b, sign_of b) (sign_of b, sign_of b)) true true = Some g ->
  snd (ask_corner calc sys true b (stop_history calc sys w l)) = Some (g_field g) /\
  snd (ask_corner calc sys false b (stop_history calc sys w l)) = Some (g_pupil g).
Proof. exact corners. Qed.
Print Assumptions C91_corner_partial.

(** The same after the cached property has been deleted. *)
Theorem C91_cleared_partial : forall calc sys w0 l w l' b g, never_set l' ->
  denormalize_grid sys (calc w) (mkGrid w (sign_of b, sign_of b) (sign_of b, sign_of b)) true true = Some g ->
  snd (ask_corner calc sys true b (stop_history calc sys w0 (l ++ [SetWavelength w; DelStops] ++ l'))) = Some (g_field g) /\
  snd (ask_corner calc sys false b (stop_history calc sys w0 (l ++ [SetWavelength w; DelStops] ++ l'))) = Some (g_pupil g).
Proof. exact corners_cleared. Qed.
Print Assumptions C91_cleared_partial.

(** The corners are those of the smallest box around the stop rays, all of which count: angles are
    the fields of an object at infinity and the pupils of others. *)
Theorem C91_box : forall sys f stops lo hi, corner sys f false stops = Some lo -> corner sys f true stops = Some hi ->
  let at_edge (part : R * R -> R) v := exists r c, In r stops /\ coordinates (sys_at_infinity sys) f r = Some c /\ part c = v in
  (forall r, In r stops -> exists c, coordinates (sys_at_infinity sys) f r = Some c /\
    fst lo <= fst c <= fst hi /\ snd lo <= snd c <= snd hi) /\
  at_edge fst (fst lo) /\ at_edge snd (snd lo) /\ at_edge fst (fst hi) /\ at_edge snd (snd hi).
Proof. exact corner_rays. Qed.
Print Assumptions C91_box.

(** Once asked for, the corners are those of the first wavelength, whatever is assigned. *)
Theorem C91_stale : forall calc sys w l f m f' m', (forall a, In a l -> a <> DelStops) ->
  snd (ask_corner calc sys f m (stop_history calc sys w (AskCorner f' m' :: l))) = corner sys f m (calc w).
Proof. exact stale. Qed.
Print Assumptions C91_stale.

Theorem C91_corner_refuted : exists calc sys w0 w g,
  denormalize_grid sys (calc w) (mkGrid w (1, 1) (1, 1)) true true = Some g /\
  let s := stop_history calc sys w0 [AskCorner true true; SetWavelength w] in
  ss_wavelength s = w /\ snd (ask_corner calc sys true true s) <> Some (g_field g).
Proof.
  destruct (two_grid 2) as (g & G & F); [lra|]. exists two_wavelengths, simple, 1, 2, g. split; [exact G|].
  cbv zeta. split; [reflexivity|]. rewrite stale by (intros a [<-|[]]; discriminate). rewrite F.
  rewrite (proj1 (two_corner simple 1 eq_refl ltac:(lra))). intros E. injection E. lra.
Qed.
Print Assumptions C91_corner_refuted.

(** Hypotheses met: asked twice, both corners of the field. *)
Example C91_nonvacuous : exists g, never_set [AskCorner false true; DelStops; AskCorner true false] /\
  denormalize_grid simple (two_wavelengths 2) (mkGrid 2 (sign_of true, sign_of true) (sign_of true, sign_of true)) true true = Some g /\
  corner simple true false (two_wavelengths 2) = Some (-2, 0) /\ corner simple true true (two_wavelengths 2) = Some (2, 1).
Proof.
  destruct (two_grid 2) as (g & G & _); [lra|]. exists g.
  split; [intros w [E|[E|[E|[]]]]; discriminate|]. split; [exact G|].
  destruct (two_corner simple 2 eq_refl) as [A B]; [lra|]. rewrite A, B. split; reflexivity.
Qed.
