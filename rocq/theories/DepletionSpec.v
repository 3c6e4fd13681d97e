(** Vocabulary for the fit of a depletion region. *)
From Coq Require Import Reals List.
From Verif Require Import Num ExtNum SensorSpec DiffusionModel TableModel ChemicalModel DepletionModel.
Import ListNotations.
Open Scope R_scope.

(** The root of the mean squared difference between measured charge captures and those of a sensor with a depletion
    region of thickness [d] (Angstrom). *)
Definition is_mcc_residual (s wp : R) (measured : list (R * R)) (d r : R) : Prop :=
  exists predicted, List.Forall2 (fun m c => exists a, absorption silicon_table (fst m) = Some a /\
      depletion_capture a s d wp = Fin c) measured predicted /\
    measured <> [] /\ 0 <= r /\
    r ^ 2 * INR (length measured) = rsum (map (fun mc => (snd (fst mc) - snd mc) ^ 2) (combine measured predicted)).

(** [d] is a thickness between nothing and the substrate with the least difference. *)
Definition best_depletion (s wp : R) (measured : list (R * R)) (d : R) : Prop :=
  0 <= d <= s /\ exists r, is_mcc_residual s wp measured d r /\
  forall e q, 0 <= e <= s -> is_mcc_residual s wp measured e q -> r <= q.

(** The minimiser keeps to the bounds and finds a least value of this function. *)
Definition finds_least (minimize : (R -> ext) -> R -> R -> R) (f : R -> ext) (lo hi : R) : Prop :=
  let x := minimize f lo hi in
  lo <= x <= hi /\ exists v, f x = Fin v /\ forall y, lo <= y <= hi -> exists u, f y = Fin u /\ v <= u.

(** Measurements of light that silicon absorbs. *)
Definition absorbed_light (measured : list (R * R)) : Prop :=
  measured <> [] /\ forall m, In m measured -> 0 < fst m < 11199.6.
