(** Vocabulary for the resolution target. *)
From Coq Require Import Reals String List.
From Verif Require Import Num TargetModel.
Import ListNotations.
Open Scope R_scope.

(** All rows have this many pixels, and no level is negative. *)
Definition well_formed (num_x num_y : nat) (img : picture) : Prop :=
  length img = num_y /\ List.Forall (fun row => length row = num_x) img /\
  forall row px level, In row img -> In px row -> In level px -> 0 <= level.

(** The pixel in column [x] and row [y]. *)
Definition pixel {A} (img : list (list A)) (x y : nat) : option A :=
  match nth_error img y with Some row => nth_error row x | None => None end.
(** The light of a pixel: the sum of its levels. *)
Definition has_light (img : picture) (x y : nat) (v : R) : Prop :=
  exists px, pixel img x y = Some px /\ v = rsum px.

(** [top] is the light of the brightest pixel. *)
Definition is_brightest (img : picture) (top : R) : Prop :=
  (exists x y, has_light img x y top) /\ forall x y v, has_light img x y v -> v <= top.

Definition begun (p : process) : Prop := match p with Begin _ _ => True | _ => False end.
