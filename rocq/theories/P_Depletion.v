(** C111: the depletion regions that the package contains. *)
From Coq Require Import Reals Lra List.
From Verif Require Import Num ExtNum DiffusionModel TableModel ChemicalModel FactoryModel DepletionModel DepletionSpec DepletionProofs.
Import ListNotations.
Open Scope R_scope.

(** C111.  A depletion region that agrees best with the measurements exists, for measurements at any wavelengths that
    silicon absorbs. *)
Theorem C111_exists : forall s wp measured, 0 < s -> 0 < wp -> absorbed_light measured -> exists d, best_depletion s wp measured d.
Proof. exact best_exists. Qed.
Print Assumptions C111_exists.

(** C111.  If the minimiser does what it is for, it is what the fit returns, together with the substrate and the pixel
    that it is for. *)
Theorem C111_fit : forall minimize s wp measured, 0 < s -> 0 < wp -> absorbed_light measured ->
  finds_least minimize (mcc_objective s wp measured) 0 (s / micrometer) ->
  best_depletion s wp measured (dm_thickness (fit_mcc minimize s wp measured)) /\
  dm_substrate (fit_mcc minimize s wp measured) = s /\ dm_pixel (fit_mcc minimize s wp measured) = wp.
Proof. exact fit_mcc_model. Qed.
Print Assumptions C111_fit.

(** C111.  It is not thicker than one for which all captured charges come out too large, and not thinner than
    one for which all come out too small. *)
Theorem C111_bracket : forall s wp measured d, 0 < s -> 0 < wp -> absorbed_light measured -> best_depletion s wp measured d ->
  (forall e, 0 <= e <= s -> (forall m a, In m measured -> absorption silicon_table (fst m) = Some a ->
     exists c, depletion_capture a s e wp = Fin c /\ snd m <= c) -> d <= e) /\
  (forall e, 0 <= e <= s -> (forall m a, In m measured -> absorption silicon_table (fst m) = Some a ->
     exists c, depletion_capture a s e wp = Fin c /\ c <= snd m) -> e <= d).
Proof. exact best_bracket. Qed.
Print Assumptions C111_bracket.

(** C111.  A field-free region of thickness [f] captures at least (1 - f / pixel)^2, so measurements below that leave
    one at least as thick. *)
Theorem C111_upper : forall s wp measured d f, 0 < s -> 0 < wp -> absorbed_light measured -> best_depletion s wp measured d ->
  0 <= f <= s -> f <= wp -> (forall m, In m measured -> snd m <= (1 - f / wp) ^ 2) -> d <= s - f.
Proof. exact best_upper. Qed.
Print Assumptions C111_upper.

(** C111.  With the measurements of the package the two fitted depletion regions are thinner than the substrates of
    the sensors they are used in, two of which are thinner than the substrate of the fit.  So all ready-made sensors have a charge
    diffusion of positive width at every wavelength that silicon absorbs. *)
Theorem C111_shipped : forall ms minimize measured w,
  finds_least ms (mcc_objective (15 * micrometer) (16 * micrometer) (measured_at thick_data)) 0 (15 * micrometer / micrometer) ->
  finds_least ms (mcc_objective (8 * micrometer) (16 * micrometer) (measured_at thin_data)) 0 (8 * micrometer / micrometer) ->
  0 < w < 11199.6 -> forall maker depletion, In (maker, depletion) (shipped_makers ms) ->
  exists v, sensor_width (p_result (maker minimize depletion measured)) w = Returns (Some v) /\ 0 < v.
Proof. exact shipped_width. Qed.
Print Assumptions C111_shipped.

(** There is such a minimiser. *)
Example C111_nonvacuous : exists ms,
  finds_least ms (mcc_objective (15 * micrometer) (16 * micrometer) (measured_at thick_data)) 0 (15 * micrometer / micrometer) /\
  finds_least ms (mcc_objective (8 * micrometer) (16 * micrometer) (measured_at thin_data)) 0 (8 * micrometer / micrometer).
Proof. exact shipped_minimiser. Qed.
Example C111_nonvacuous_light : absorbed_light (measured_at thin_data) /\
  forall m, In m (measured_at thin_data) -> snd m <= (1 - 18000 / 160000) ^ 2.
Proof.
  split; [exact thin_absorbed|]. intros m I. unfold measured_at in I. apply in_map_iff in I as (p & <- & I). cbn in I. cbn [snd].
  intuition subst; cbn; lra.
Qed.
