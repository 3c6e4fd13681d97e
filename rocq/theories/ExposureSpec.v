(** What it means that each pixel of an exposure has its own parameters. *)
From Coq Require Import Reals List String Arith ZArith.
From Verif Require Import Num ShapeModel RamanathanModel ExposureModel.
Import ListNotations.
Open Scope string_scope.
Open Scope list_scope.
Open Scope nat_scope.

(** A place inside a shape. *)
Definition inside (s : shape) (p : place) : Prop := forall a n, In (a, n) s -> p a < n.

(** The pixel [px] has the parameters that the arrays of [e] have at the place [p]. *)
Definition own_pixel (e : exposure) (num_n : nat) (p : place) (px : mc_pixel) : Prop :=
  element (ex_photons e) p = Some (px_photons px) /\ element (ex_energy e) p = Some (px_energy px) /\
  element (ex_absorption e) p = Some (px_absorption px) /\ element (ex_implant e) p = Some (px_implant px) /\
  element (ex_depletion e) p = Some (px_depletion px) /\ element (ex_substrate e) p = Some (px_substrate px) /\
  element (ex_width_x e) p = Some (px_width_x px) /\ element (ex_width_y e) p = Some (px_width_y px) /\
  element (ex_eta0 e) p = Some (px_eta0 px) /\ element (ex_pair_inf e) p = Some (px_energy_pair_inf px) /\
  element (ex_fano_inf e) p = Some (px_fano_inf px) /\
  List.length (px_p px) = num_n /\ List.length (px_n px) = num_n /\
  forall k, k < num_n -> element (ex_p e) (move "num_electron" k p) = nth_error (px_p px) k /\
    element (ex_n e) (move "num_electron" k p) = nth_error (px_n px) k.

(** The number of elements of a shape. *)
Definition elements (s : shape) : nat := fold_right (fun an m => snd an * m) 1 s.

(** An array with the right number of elements, whose axes are axes of [s] and have the same size there, or the size one. *)
Definition fits {A} (s : shape) (a : narray A) : Prop :=
  List.length (na_data a) = elements (na_shape a) /\
  forall b n, In (b, n) (na_shape a) -> exists m, In (b, m) s /\ (n = m \/ n = 1).

(** All arguments fit the shape [s], the probabilities and numbers of pairs with an axis more. *)
Definition arguments_fit (s : shape) (num_n : nat) (e : exposure) : Prop :=
  fits s (ex_photons e) /\ fits s (ex_energy e) /\ fits s (ex_absorption e) /\ fits s (ex_implant e) /\ fits s (ex_depletion e) /\
  fits s (ex_substrate e) /\ fits s (ex_width_x e) /\ fits s (ex_width_y e) /\ fits s (ex_eta0 e) /\
  fits (("num_electron", num_n) :: s) (ex_p e) /\ fits (("num_electron", num_n) :: s) (ex_n e) /\
  fits s (ex_pair_inf e) /\ fits s (ex_fano_inf e).
