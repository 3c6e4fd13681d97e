(** Coatings that meet the hypotheses. *)
From Coq Require Import Reals Lra List Arith ZArith.
From Coquelicot Require Import Coquelicot.
From Verif Require Import ComplexModel ComplexLemmas LayerModel LayerSpec FresnelSpec.
Import ListNotations.
Open Scope R_scope.

Definition slab (n h : R) : layer := Layer (Some (fun _ => RtoC n)) h None.
(** Light of wavelength 8 along the normal: two plates of a quarter wave and one of a half wave. *)
Definition high : plate := mkPlate 2 0 (PI / 2).
Definition low : plate := mkPlate 1 0 (PI / 2).
Definition half : plate := mkPlate 2 0 PI.

Lemma normal_wave : forall n, 0 < n -> wave_angle (1 * sin 0) n 0.
Proof. intros n N. assert (P := PI_RGT_0). split; [exact N|]. split; [lra|]. rewrite sin_0. ring. Qed.

Lemma normal_plates : is_plate 8 (1 * sin 0) (slab 2 1) high /\ is_plate 8 (1 * sin 0) (slab 1 2) low /\ is_plate 8 (1 * sin 0) (slab 2 2) half.
Proof.
  assert (X : forall n h ph, 0 < n -> 0 <= h -> ph = 2 * PI * (n * cos 0 * h) / 8 -> is_plate 8 (1 * sin 0) (slab n h) (mkPlate n 0 ph)).
  { intros n h ph N H E. split; [reflexivity|]. split; [reflexivity|]. split; [exact H|]. split; [apply normal_wave; exact N | exact E]. }
  split; [|split]; apply X; try lra; rewrite cos_0; field.
Qed.

Lemma coating_example : wave_angle (1 * sin 0) 1 0 /\ wave_angle (1 * sin 0) 4 0 /\ layer_n (slab 4 0) 8 = RtoC 4 /\
  is_plate 8 (1 * sin 0) (slab 2 1) high /\ is_plate 8 (1 * sin 0) (slab 1 2) low /\ is_plate 8 (1 * sin 0) (slab 2 2) half /\
  quarters high 1 /\ quarters low 1 /\ sin (pl_phase half) = 0 /\
  plate_tilted true high ^ 2 = tilted true 1 0 * tilted true 4 0 /\ plate_tilted true high / plate_tilted true low = 2.
Proof.
  destruct normal_plates as (A & B & C). split; [apply normal_wave; lra|]. split; [apply normal_wave; lra|]. split; [reflexivity|].
  split; [exact A|]. split; [exact B|]. split; [exact C|]. split; [unfold quarters; cbn; ring|]. split; [unfold quarters; cbn; ring|].
  split; [exact sin_PI|]. unfold plate_tilted, tilted. cbn. rewrite cos_0. split; field.
Qed.

(** Brewster's angle of a glass of index sqrt 3, and light beyond the critical angle of a dense glass. *)
Lemma tilted_example : wave_angle (1 * sin (PI / 3)) 1 (PI / 3) /\ wave_angle (1 * sin (PI / 3)) (sqrt 3) (PI / 6) /\ 0 < PI / 3 /\
  PI / 3 + PI / 6 = PI / 2.
Proof.
  assert (P := PI_RGT_0). assert (S3 : 0 < sqrt 3) by (apply sqrt_lt_R0; lra).
  split; [split; [lra|]; split; [lra | reflexivity]|]. split; [split; [exact S3|]; split; [lra|]|].
  - rewrite sin_PI3, sin_PI6. field.
  - split; lra.
Qed.

Lemma total_example : ideal_stack lossless 8 2 (cos (PI / 3)) (ASequence [ALayer (slab 3 1)]) (Some (slab 1 0)) /\
  layer_n (slab 1 0) 8 = RtoC 1 /\ 0 < 1 /\ 1 < 2 * sin (PI / 3).
Proof.
  assert (S3 : sqrt 3 * sqrt 3 = 3) by (apply sqrt_sqrt; lra). assert (P3 : 0 < sqrt 3) by (apply sqrt_lt_R0; lra).
  split; [|split; [reflexivity|]; split; [lra|]; rewrite sin_PI3; nra].
  rewrite cos_PI3. split; [lra|]. split; [lra|]. split; [lra|]. split; [cbn; auto|].
  assert (X : forall n h, 0 < n -> 0 <= h -> n * n <> 3 -> lossless (layer_n (slab n h) 8) /\ 0 <= ly_thickness (slab n h) /\ ly_interface (slab n h) = None /\
    off_critical (RtoC (2 ^ 2 * (1 - (1 / 2) ^ 2))) (layer_n (slab n h) 8)).
  { intros n h N H D. split; [split; [exact N | reflexivity]|]. split; [exact H|]. split; [reflexivity|]. unfold off_critical. cbn [layer_n slab ly_chemical].
    rewrite <- RtoC_mult. intros E. apply RtoC_inj in E. apply D. rewrite E. field. }
  constructor; [apply X; lra|]. cbn [layers_of app]. constructor; [apply X; lra | constructor].
Qed.
