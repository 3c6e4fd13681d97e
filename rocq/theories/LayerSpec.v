(** Independent vocabulary for the properties of multilayers. *)
From Coq Require Import Reals List Bool ZArith.
From Coquelicot Require Import Coquelicot.
From Verif Require Import Num ComplexModel ProfileModel LayerModel.
Import ListNotations.
Open Scope C_scope.

(** Snell's law applied interface after interface. *)
Fixpoint snell_chain (c n : C) (ns : list C) : option C :=
  match ns with
  | [] => Some c
  | m :: ns => match snells_law_scalar c n m with None => None | Some c' => snell_chain c' m ns end
  end.

(** The layers of a stack, each once. *)
Fixpoint layers_of (l : alayer) : list layer :=
  let all := fix all (ls : list alayer) :=
    match ls with [] => [] | l :: ls => layers_of l ++ all ls end in
  match l with
  | ALayer l => [l]
  | ASequence ls => all ls
  | APeriodic ls _ => all ls
  end.

(** Every periodic part is repeated at least once. *)
Fixpoint periods_positive (l : alayer) : Prop :=
  let all := fix all (ls : list alayer) :=
    match ls with [] => True | l :: ls => periods_positive l /\ all ls end in
  match l with
  | ALayer _ => True
  | ASequence ls => all ls
  | APeriodic ls n => (1 <= n)%Z /\ all ls
  end.

(** Media. *)
Definition passive (n : C) : Prop := (0 < Re n /\ 0 <= Im n)%R.
Definition lossless (n : C) : Prop := (0 < Re n /\ Im n = 0)%R.

(** What the wave is like in a medium of index [n], when [k] is the square of the
    conserved tangential component (index times sine): [n^2 = k] is the critical angle. *)
Definition off_critical (k : C) (n : C) : Prop := n * n <> k.

(** A stack between a lossless ambient medium of index [n0], in which the wave has the
    cosine [c0], and a substrate: passive media, perfect interfaces, no medium
    exactly at its critical angle. *)
Definition ideal_stack (medium : C -> Prop) (wavelength n0 c0 : R) (layers : alayer) (substrate : option layer) : Prop :=
  (0 < n0)%R /\ (0 < c0 <= 1)%R /\ (0 < wavelength)%R /\ periods_positive layers /\
  List.Forall (fun l => medium (layer_n l wavelength) /\ (0 <= ly_thickness l)%R /\ ly_interface l = None /\
                   off_critical (RtoC (n0 ^ 2 * (1 - c0 ^ 2))) (layer_n l wavelength))
         (substrate_layer substrate :: layers_of layers).

(** The amplitude of the wave is not attenuated by the factor [10^10] in a layer; the cosine [c]
    of the wave in the layer is given by the conserved component [k] of the direction. *)
Definition transparent (k : C) (wavelength : R) (l : layer) : Prop :=
  forall c, layer_n l wavelength * layer_n l wavelength * (1 - c * c) = k ->
    (exp (2 * PI * ly_thickness l / wavelength * Im (layer_n l wavelength * c)%C) < 10 ^ 10)%R.

(** The first surface that the light meets, of a layer or of the substrate, is smooth. *)
Definition smooth_head (l : list layer) : Prop := match l with [] => True | x :: _ => ly_interface x = None end.
Definition first_smooth (layers : alayer) (substrate : option layer) : Prop :=
  smooth_head (layers_of layers ++ [substrate_layer substrate]).
