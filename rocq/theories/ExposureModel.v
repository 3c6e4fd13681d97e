(** The arrays of a Monte Carlo exposure:
    optika/sensors/materials/_ramanathan_2020/_ramanathan_2020.py:607-690, 693-757. *)
From Coq Require Import Reals List String Bool Arith ZArith.
From Verif Require Import Num ShapeModel RamanathanModel.
Import ListNotations.
Open Scope string_scope.
Open Scope list_scope.
Open Scope nat_scope.
Open Scope opt_scope.

(** [na.ScalarArray]: the axes with their sizes, and the elements of [ndarray] with the last axis
    running fastest. *)
Record narray (A : Type) := mkNarray { na_shape : shape; na_data : list A }.
Arguments mkNarray {A}. Arguments na_shape {A}. Arguments na_data {A}.

(** A place: an index for every axis. *)
Definition place := string -> nat.
Definition move (a : string) (i : nat) (p : place) : place := fun b => if String.eqb b a then i else p b.

(** The number of the element at a place; an axis of the size one is stretched. *)
Fixpoint number_from (acc : nat) (s : shape) (p : place) : nat :=
  match s with
  | [] => acc
  | (a, n) :: rest => number_from (acc * n + (if Nat.eqb n 1 then O else p a)) rest p
  end.
Definition number (s : shape) (p : place) : nat := number_from O s p.
Definition element {A} (a : narray A) (p : place) : option A := nth_error (na_data a) (number (na_shape a) p).

(** All places of a shape, in the order of the elements. *)
Fixpoint places (s : shape) : list place :=
  match s with
  | [] => [fun _ => O]
  | (a, n) :: rest => flat_map (fun i => map (move a i) (places rest)) (seq 0 n)
  end.

(** [na.broadcast_to] (external) *)
Definition stretches (s t : shape) : bool :=
  forallb (fun an => match lookup (fst an) t with Some m => Nat.eqb (snd an) m || Nat.eqb (snd an) 1 | None => false end) s.
Definition broadcast_to {A} (a : narray A) (t : shape) : option (narray A) :=
  if stretches (na_shape a) t then let* d := osequence (map (element a) (places t)) in Some (mkNarray t d) else None.

(** [shape[axis] = size]: an item that exists keeps its place. *)
Definition set_item (a : string) (n : nat) (s : shape) : shape :=
  match lookup a s with Some _ => assign a n s | None => s ++ [(a, n)] end.

(** Lines 623-631: the axes of the pixels are moved to the end, or two axes of the size one are put there; a name
    that is not an axis is a [KeyError]. *)
Definition exposure_shape (s : shape) (axis_xy : option (string * string)) : option (shape * (string * string)) :=
  match axis_xy with
  | Some (ax, ay) =>
      let* nx := lookup ax s in
      let s := set_item ax nx (pop ax s) in
      let* ny := lookup ay s in
      Some (set_item ay ny (pop ay s), (ax, ay))
  | None => Some (set_item "__dummy_y__" 1 (set_item "__dummy_x__" 1 s), ("__dummy_x__", "__dummy_y__"))
  end.

(** The arguments, lines 633-673, in the order of lines 669-683; [ex_p] and [ex_n] are the probabilities and numbers of pairs of
    [probability_of_n_pairs], whose last axis is [num_electron].  The tables behind
    [ex_p], [ex_pair_inf] and [ex_fano_inf] are those of [measured_pixel]. *)
Record exposure := mkExposure {
  ex_photons : narray R; ex_energy : narray R; ex_absorption : narray R; ex_implant : narray R; ex_depletion : narray R;
  ex_substrate : narray R; ex_width_x : narray R; ex_width_y : narray R; ex_eta0 : narray R;
  ex_p : narray R; ex_n : narray Z; ex_pair_inf : narray R; ex_fano_inf : narray R }.

(** Line 652: [na.broadcast_shapes(shape, n.shape)] puts the new axis behind the others (external; the order is what
    line 748 needs). *)
Definition shape_n (s : shape) (n : nat) : shape := s ++ [("num_electron", n)].

(** Lines 633-667 *)
Definition broadcast_exposure (e : exposure) (s : shape) (n : nat) : option exposure :=
  let* photons := broadcast_to (ex_photons e) s in
  let* energy := broadcast_to (ex_energy e) s in
  let* absorption := broadcast_to (ex_absorption e) s in
  let* implant := broadcast_to (ex_implant e) s in
  let* depletion := broadcast_to (ex_depletion e) s in
  let* substrate := broadcast_to (ex_substrate e) s in
  let* width_x := broadcast_to (ex_width_x e) s in
  let* width_y := broadcast_to (ex_width_y e) s in
  let* eta0 := broadcast_to (ex_eta0 e) s in
  let* p := broadcast_to (ex_p e) (shape_n s n) in
  let* m := broadcast_to (ex_n e) (shape_n s n) in
  let* pair_inf := broadcast_to (ex_pair_inf e) s in
  let* fano_inf := broadcast_to (ex_fano_inf e) s in
  Some (mkExposure photons energy absorption implant depletion substrate width_x width_y eta0 p m pair_inf fano_inf).

(** Lines 738-751: the element [i, x, y] of an array after [reshape(-1, num_x, num_y)], and the row [i, x, y] of an array after
    [reshape(-1, num_x, num_y, num_n)].  (What numba reads behind the end of an array is [garbage].) *)
Definition cell {A} (garbage : A) (num_x num_y : nat) (a : narray A) (i x y : nat) : A :=
  nth ((i * num_x + x) * num_y + y) (na_data a) garbage.
Definition row {A} (garbage : A) (num_x num_y num_n : nat) (a : narray A) (i x y : nat) : list A :=
  map (fun k => nth (((i * num_x + x) * num_y + y) * num_n + k) (na_data a) garbage) (seq 0 num_n).

(** Lines 789-802: the arguments of the pixel [i, x, y]. *)
Definition pixel_of (garbage : R) (junk : Z) (num_x num_y num_n : nat) (e : exposure) (i : nat) (x y : Z) : mc_pixel :=
  let c a := cell garbage num_x num_y a i (Z.to_nat x) (Z.to_nat y) in
  mkPixel (c (ex_photons e)) (c (ex_energy e)) (c (ex_absorption e)) (c (ex_implant e)) (c (ex_depletion e)) (c (ex_substrate e))
    (c (ex_width_x e)) (c (ex_width_y e)) (c (ex_eta0 e))
    (row garbage num_x num_y num_n (ex_p e) i (Z.to_nat x) (Z.to_nat y)) (row junk num_x num_y num_n (ex_n e) i (Z.to_nat x) (Z.to_nat y))
    (c (ex_pair_inf e)) (c (ex_fano_inf e)).

(** The last two sizes of a shape, lines 721-722. *)
Definition last_sizes (s : shape) : option (nat * nat) :=
  match rev s with (_, ny) :: (_, nx) :: _ => Some (nx, ny) | _ => None end.

(** Lines 607-690 and 693-757.  [s] is the shape of all arguments together, [draws i x y j] the draws for photon [j] of the pixel
    [i, x, y]. *)
Definition measured_array (garbage : R) (junk : Z) (wrap : bool) (draws : nat -> Z -> Z -> nat -> photon_draws)
    (axis_xy : option (string * string)) (s : shape) (num_n : nat) (e : exposure) : option (narray Z) :=
  let* sx := exposure_shape s axis_xy in
  let (t, _) := sx in
  let* e := broadcast_exposure e t num_n in
  let* xy := last_sizes t in
  let (num_x, num_y) := xy in
  if Nat.eqb (num_x * num_y * num_n) 0 then None else
  let num_i := Nat.div (List.length (na_data (ex_p e))) (num_x * num_y * num_n) in
  let* gs := run_slices wrap (Z.of_nat num_x) (Z.of_nat num_y)
    (map (fun i => mkSlice (pixel_of garbage junk num_x num_y num_n e i) (draws i)) (seq 0 num_i)) in
  let data := flat_map (fun g : Z -> Z -> Z => flat_map (fun x => map (fun y => g (Z.of_nat x) (Z.of_nat y)) (seq 0 num_y)) (seq 0 num_x)) gs in
  Some (match axis_xy with
        | Some _ => mkNarray t data
        | None => mkNarray (pop "__dummy_y__" (pop "__dummy_x__" t)) data
        end).
