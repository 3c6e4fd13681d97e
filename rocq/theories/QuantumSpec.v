(** Vocabulary for the efficiencies of a sensor. *)
From Coq Require Import Reals.
From Coquelicot Require Import Coquelicot.
From Verif Require Import Vec ComplexModel LayerSpec QuantumModel.
Open Scope R_scope.

(** A smooth sensor of passive materials in a lossless medium of index [n0], in which the light
    arrives with the cosine [c0]; no critical angle. *)
Definition smooth_sensor (q : detector) (wavelength n0 c0 : R) : Prop :=
  0 < n0 /\ 0 < c0 <= 1 /\ 0 < wavelength /\ 0 <= dt_oxide q /\ 0 <= dt_substrate q /\
  dt_rough_oxide q = 0 /\ dt_rough_substrate q = 0 /\
  passive (dt_n_oxide q wavelength) /\ passive (dt_n_substrate q wavelength) /\
  off_critical (RtoC (n0 ^ 2 * (1 - c0 ^ 2))) (dt_n_oxide q wavelength) /\
  off_critical (RtoC (n0 ^ 2 * (1 - c0 ^ 2))) (dt_n_substrate q wavelength).

(** The attenuation per depth of the intensity of the wave in a medium of index [n]: twice the
    imaginary part of the normal component of its wave vector, which is the root of
    [n^2 - n0^2 sin^2] that decays. *)
Definition is_attenuation (n : C) (wavelength n0 c0 a : R) : Prop :=
  exists kz : C, (kz * kz = n * n - RtoC (n0 ^ 2 * (1 - c0 ^ 2)))%C /\ 0 <= Re kz /\ 0 <= Im kz /\
    a = 2 * (2 * PI / wavelength * Im kz).

(** The probability that light of this attenuation is absorbed before the depth [D]. *)
Definition is_absorbed (a D p : R) : Prop := is_RInt (fun z => a * exp (- a * z)) 0 D p.

(** The same sensor with another thickness of the substrate. *)
Definition with_substrate (q : detector) (h : R) : detector :=
  mkDetector (dt_oxide q) (dt_implant q) h (dt_eta0 q) (dt_n_oxide q) (dt_n_substrate q) (dt_rough_oxide q)
    (dt_rough_substrate q) (dt_temperature q).

(** The oxide lets light through: the amplitude is attenuated by less than the factor [10^10]
    beyond which the code stops; the substrate does not. *)
Definition clear_oxide (q : detector) (wavelength n0 c0 : R) : Prop :=
  forall a, is_attenuation (dt_n_oxide q wavelength) wavelength n0 c0 a -> exp (a * dt_oxide q / 2) < 10 ^ 10.
Definition opaque_substrate (q : detector) (wavelength n0 c0 : R) : Prop :=
  forall a, is_attenuation (dt_n_substrate q wavelength) wavelength n0 c0 a -> 10 ^ 10 <= exp (a * dt_substrate q / 2).

(** The cosine of incidence meant by the arguments of a method: without them light goes up and
    the normal points down. *)
Definition arrives (direction normal : option vec3) (c : R) : Prop :=
  match direction, normal with
  | Some d, Some u => c = - dot d u
  | Some d, None => c = vz d
  | None, Some u => c = - vz u
  | None, None => c = 1
  end.
