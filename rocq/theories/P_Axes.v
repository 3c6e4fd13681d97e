(** C95: the axes along which the rays of a fit are reduced. *)
From Coq Require Import String List Bool Arith Permutation.
From Verif Require Import Num SystemModel AxesModel AxesSpec AxesProofs.
Import ListNotations.

(** [order] is the order in which Python lists a set.  When a grid is given, the axes are those of
    the grid that was asked for and of the rays that are returned; no error is raised when there
    are such axes; nothing is cached. *)
Theorem C95_given_partial : forall order, (forall l, Permutation (order l) l) ->
  forall c s a g, stop_follows c -> no_grids a = false -> asks_for (as_grid s) a g -> well_shaped g ->
  (forall s' rays w f p, rayfunction_and_axes order c s a = (s', Some (rays, (w, f, p))) ->
     s' = s /\ axes_of (ax_shape c) g w f p /\ axes_of (ax_shape c) rays w f p /\ accounted (ax_shape c) rays w f p) /\
  ((exists w f p, axes_of (ax_shape c) g w f p) ->
     exists rays w f p, rayfunction_and_axes order c s a = (s, Some (rays, (w, f, p)))).
Proof. exact fit_given. Qed.
Print Assumptions C95_given_partial.

(** Without grids, whatever was called before, as long as [grid_input] was not assigned. *)
Theorem C95_default_partial : forall order, (forall l, Permutation (order l) l) ->
  forall c l g a, stop_follows c -> undeclared c -> List.Forall keeps_grid l -> well_shaped g ->
  no_grids a = true ->
  (forall s' rays w f p, rayfunction_and_axes order c (axis_history order c g l) a = (s', Some (rays, (w, f, p))) ->
     axes_of (ax_shape c) g w f p /\ axes_of (ax_shape c) rays w f p /\ accounted (ax_shape c) rays w f p) /\
  ((exists w f p, axes_of (ax_shape c) g w f p) ->
     exists s' rays w f p, rayfunction_and_axes order c (axis_history order c g l) a = (s', Some (rays, (w, f, p)))).
Proof. exact fit_default. Qed.
Print Assumptions C95_default_partial.

(** Axes that the system declares are those used when no grid is given. *)
Theorem C95_declared_partial : forall order, forall c l g a w f p, List.Forall keeps_grid l -> no_grids a = true ->
  ax_wavelength c = Some w -> ax_field c = Some f -> ax_pupil c = Some p ->
  exists s' rays, rayfunction_and_axes order c (axis_history order c g l) a = (s', Some (rays, ([w], f, p))) /\
    (forall x, In x (sh_wavelength g ++ sh_field g ++ sh_pupil g) -> In x (sh_wavelength rays ++ sh_field rays ++ sh_pupil rays)).
Proof. exact fit_declared. Qed.
Print Assumptions C95_declared_partial.

(** After assigning [grid_input] and deleting [rayfunction_default], as documented, the pupil axes
    returned are not axes of the rays returned. *)
Theorem C95_default_refuted : exists c g g' s rays w f p,
  stop_follows c /\ undeclared c /\ well_shaped g /\ well_shaped g' /\
  (exists w f p, axes_of (ax_shape c) g' w f p) /\
  rayfunction_and_axes identity_order c (axis_history identity_order c g [Fit no_arguments; SetShapes g'; DropDefault]) no_arguments =
    (s, Some (rays, (w, f, p))) /\
  (forall x, In x p -> ~ In x (sh_wavelength rays ++ sh_field rays ++ sh_pupil rays)) /\ p <> [].
Proof. exact fit_stale. Qed.
Print Assumptions C95_default_refuted.

(** Naming the grid that would be used anyway makes the declared axes unknown. *)
Theorem C95_declared_refuted : exists c g pupil w f p, well_shaped g /\ stop_follows c /\
  ax_wavelength c = Some w /\ ax_field c = Some f /\ ax_pupil c = Some p /\ pupil = sh_pupil g /\
  (exists s rays, rayfunction_and_axes identity_order c (mkAxisState g None None) no_arguments = (s, Some (rays, ([w], f, p)))) /\
  snd (rayfunction_and_axes identity_order c (mkAxisState g None None) (mkAxisArgs None None (Some pupil) true true)) = None.
Proof. exact fit_ignores. Qed.
Print Assumptions C95_declared_refuted.

Example C95_nonvacuous :
  stop_follows ex_config /\ undeclared ex_config /\ well_shaped ex_grid /\
  no_grids no_arguments = true /\
  (let a := mkAxisArgs None None (Some ["qx"; "qy"]%string) true true in
   no_grids a = false /\ asks_for ex_grid a other_grid /\
   rayfunction_and_axes identity_order ex_config (mkAxisState ex_grid None None) a =
     (mkAxisState ex_grid None None,
      Some (mkShapes ["w"] ["w"; "fx"; "fy"] ["w"; "qx"; "qy"], (["w"], ["fx"; "fy"], ["qx"; "qy"]))%string)) /\
  List.Forall keeps_grid [Fit no_arguments; DropDefault].
Proof.
  split; [intros w N; split; [exact N|cbn; tauto]|]. split; [repeat split|].
  split.
  { split; [|split]; cbn; repeat (constructor; [cbn; intuition discriminate|]); constructor. }
  split; [reflexivity|]. split.
  { cbv zeta. split; [reflexivity|]. split; [|reflexivity].
    unfold asks_for. cbn. repeat split; intros; congruence. }
  repeat constructor.
Qed.
