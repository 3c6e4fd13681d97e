(** What the Monte Carlo model of a sensor should count. *)
From Coq Require Import Reals List Bool ZArith.
From Verif Require Import RamanathanModel.
Import ListNotations.

(** An electron: the pixel [x], [y] its photon fell on, the number of the photon, and its own
    number among the electrons of that photon that survive recombination. *)
Definition electron : Type := Z * Z * nat * nat.

(** A binomial draw is between zero and its number of trials. *)
Definition proper_draws (s : mc_slice) : Prop :=
  forall x y j n p, (0 <= n -> 0 <= dr_binomial (sl_draws s x y j) n p <= n)%Z.

(** Photons on a pixel, and survivors of one of them. *)
Definition photons (s : mc_slice) (x y : Z) : nat := Z.to_nat (int_of (px_photons (sl_pixel s x y))).
Definition survivors (s : mc_slice) (x y : Z) (j : nat) : Z :=
  match surviving (sl_pixel s x y) (sl_draws s x y j) with Some m => m | None => 0%Z end.

Definition is_electron (num_x num_y : Z) (s : mc_slice) (el : electron) : Prop :=
  let '(x, y, j, e) := el in
  (0 <= x < num_x /\ 0 <= y < num_y)%Z /\ (j < photons s x y)%nat /\ (Z.of_nat e < survivors s x y j)%Z.

(** Where the electron ends up, on an unbounded grid. *)
Definition position (s : mc_slice) (el : electron) : Z * Z :=
  let '(x, y, j, e) := el in
  let d := displacement (sl_pixel s x y) (sl_draws s x y j) e in
  (x + fst d, y + snd d)%Z.

(** Pixel [p] of the grid is the one for position [q]: itself, or modulo the size of the grid. *)
Definition on_pixel (wrap : bool) (num_x num_y : Z) (p q : Z * Z) : Prop :=
  if wrap then (exists k, fst q = fst p + k * num_x)%Z /\ (exists k, snd q = snd p + k * num_y)%Z else q = p.

Definition in_grid (num_x num_y : Z) (p : Z * Z) : Prop := (0 <= fst p < num_x /\ 0 <= snd p < num_y)%Z.

(** [n] electrons satisfy [P]: they can be listed without repetition. *)
Definition number_of (P : electron -> Prop) (n : Z) : Prop :=
  exists l, NoDup l /\ (forall el, In el l <-> P el) /\ Z.of_nat (length l) = n.

(** The sum of an image over the grid. *)
Definition zsum (l : list Z) : Z := fold_right Z.add 0%Z l.
Definition grid_total (num_x num_y : Z) (g : Z -> Z -> Z) : Z :=
  zsum (map (fun x => zsum (map (fun y => g x y) (zrange num_y))) (zrange num_x)).
(** All the electrons that survive recombination, photon by photon. *)
Definition freed (num_x num_y : Z) (s : mc_slice) : Z :=
  grid_total num_x num_y (fun x y => zsum (map (survivors s x y) (seq 0 (photons s x y)))).

(** The cumulative distribution of the depth of absorption in a layer of thickness [D]. *)
Definition truncated_cdf (a D z : R) : R :=
  (if Req_EM_T a 0 then z / D else (1 - exp (- a * z)) / (1 - exp (- a * D)))%R.

(** The whole number nearest to a real number, the even one of two. *)
Definition nearest (x : R) (k : Z) : Prop := Rabs (x - IZR k) <= 1 / 2 /\ (Rabs (x - IZR k) = 1 / 2 -> Z.Even k).
