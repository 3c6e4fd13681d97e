(** C108: the resolution target. *)
From Coq Require Import Reals Lra String List.
From Verif Require Import Num TargetModel TargetSpec TargetProofs.
Import ListNotations.
Open Scope R_scope.

(** The target has the size of the rendered picture, its first row is the lowest of the picture, and its values go from 0 for
    the brightest pixel to 1 for black, linearly in the light of a pixel. *)
Theorem C108_values : forall nx ny img top, well_formed nx ny img -> is_brightest img top -> 0 < top ->
  exists t, target_of img = Some t /\ length t = ny /\ List.Forall (fun row => length row = nx) t /\
    (forall x y v, has_light img x y v -> pixel t x (ny - 1 - y) = Some (Some (1 - v / top)) /\ 0 <= 1 - v / top <= 1) /\
    (exists x y, pixel t x y = Some (Some 0)) /\
    (forall x y, has_light img x y 0 -> pixel t x (ny - 1 - y) = Some (Some 1)).
Proof. exact target_values. Qed.
Print Assumptions C108_values.

(** A picture without light has no values. *)
Theorem C108_black : forall img t, is_brightest img 0 -> target_of img = Some t -> forall x y v, pixel t x y = Some v -> v = None.
Proof. exact target_black. Qed.
Print Assumptions C108_black.

(** A call that nothing disturbs gives this target whatever the files are, and changes one file only.  The full claim is that
    no file is changed. *)
Theorem C108_alone_partial : forall render nx ny d, fst (airforce render nx ny d) = Some (target_of (render nx ny)) /\
  (forall name, name <> "tmp.png"%string -> snd (airforce render nx ny d) name = d name) /\
  snd (airforce render nx ny d) "tmp.png"%string = Some (render nx ny).
Proof. exact airforce_alone. Qed.
Print Assumptions C108_alone_partial.

(** A file of this name is lost. *)
Theorem C108_files_refuted : exists render d mine, d "tmp.png"%string = Some mine /\ snd (airforce render 1%nat 2%nat d) "tmp.png"%string <> Some mine.
Proof. exact overwrites. Qed.
Print Assumptions C108_files_refuted.

(** Of programs that run at the same time in one directory, each gets the target of one of them, ... *)
Theorem C108_together_partial : forall render schedule ps d x y result, List.Forall begun ps ->
  In (Finished x y result) (fst (interleave render schedule ps d)) ->
  exists x' y', In (Begin x' y') ps /\ result = Some (target_of (render x' y')).
Proof. exact together_some. Qed.
Print Assumptions C108_together_partial.

(** ... and its own, if they run one after the other in any order, ... *)
Theorem C108_serial_partial : forall render order ps d x y result, List.Forall begun ps ->
  In (Finished x y result) (fst (interleave render (flat_map (fun n => [n; n]) order) ps d)) -> result = Some (target_of (render x y)).
Proof. exact serial_own. Qed.
Print Assumptions C108_serial_partial.

(** ... but in general that of another. *)
Theorem C108_together_refuted : exists render schedule d r, In (Finished 1%nat 2%nat r) (fst (interleave render schedule [Begin 1%nat 2%nat; Begin 2%nat 1%nat] d)) /\
  r = Some (target_of (render 2%nat 1%nat)) /\ r <> Some (target_of (render 1%nat 2%nat)).
Proof. exact race. Qed.
Print Assumptions C108_together_refuted.

(** Two pictures. *)
Example C108_nonvacuous : well_formed 1 2 (drawing 1%nat 2%nat) /\ is_brightest (drawing 1%nat 2%nat) 3 /\ well_formed 2 1 (drawing 2%nat 1%nat) /\ is_brightest (drawing 2%nat 1%nat) (3 / 2).
Proof. exact drawing_formed. Qed.
