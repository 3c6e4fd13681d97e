(** Rays near the axis. *)
From Coq Require Import Reals Lra Psatz List Bool.
From Coquelicot Require Import Coquelicot.
From Verif Require Import Vec VecLemmas Num NumLemmas RayModel SnellModel SurfaceModel SagModel ParaxialSpec.
Import ListNotations.
Open Scope R_scope.
Open Scope opt_scope.

(** ** Functions that are continuous at 0, and functions that vanish there with a derivative *)
Definition cont (f : R -> R) (c : R) : Prop := f 0 = c /\ continuity_pt f 0.
Definition small (f : R -> R) (v : R) : Prop := f 0 = 0 /\ is_derive f 0 v.

Lemma cont_const c : cont (fun _ => c) c.
Proof. split; [reflexivity|]. apply continuity_pt_const. intros a b. reflexivity. Qed.
Lemma cont_plus f g a b : cont f a -> cont g b -> cont (fun t => f t + g t) (a + b).
Proof. intros [<- F] [<- G]. split; [reflexivity|]. exact (continuity_pt_plus f g 0 F G). Qed.
Lemma cont_minus f g a b : cont f a -> cont g b -> cont (fun t => f t - g t) (a - b).
Proof. intros [<- F] [<- G]. split; [reflexivity|]. exact (continuity_pt_minus f g 0 F G). Qed.
Lemma cont_mult f g a b : cont f a -> cont g b -> cont (fun t => f t * g t) (a * b).
Proof. intros [<- F] [<- G]. split; [reflexivity|]. exact (continuity_pt_mult f g 0 F G). Qed.
Lemma cont_opp f a : cont f a -> cont (fun t => - f t) (- a).
Proof. intros [<- F]. split; [reflexivity|]. exact (continuity_pt_opp f 0 F). Qed.
Lemma cont_div f g a b : cont f a -> cont g b -> b <> 0 -> cont (fun t => f t / g t) (a / b).
Proof. intros [<- F] [<- G] N. split; [reflexivity|]. exact (continuity_pt_div f g 0 F G N). Qed.
Lemma cont_sqrt f a : cont f a -> 0 <= a -> cont (fun t => sqrt (f t)) (sqrt a).
Proof. intros [<- F] N. split; [reflexivity|]. apply (continuity_pt_comp f sqrt 0 F). apply continuity_pt_sqrt. exact N. Qed.
Lemma cont_value f a b : cont f a -> a = b -> cont f b.
Proof. intros F <-. exact F. Qed.
Lemma small_cont f v : small f v -> cont f 0.
Proof.
  intros [Z D]. split; [exact Z|]. apply derivable_continuous_pt. exists v. apply is_derive_Reals. exact D.
Qed.
Lemma cont_pos f a : cont f a -> 0 < a -> locally 0 (fun t => 0 < f t).
Proof.
  intros [<- F] A. apply continuity_pt_filterlim in F. apply F. exists (mkposreal _ A). intros y B.
  apply Rabs_lt_between in B. cbn in B. unfold minus, plus, opp in B. cbn in B. lra.
Qed.
Lemma cont_neg f a : cont f a -> a < 0 -> locally 0 (fun t => f t < 0).
Proof.
  intros F A. generalize (cont_pos _ _ (cont_opp f a F) ltac:(lra)). apply filter_imp. intros t H. lra.
Qed.
Lemma cont_nz f a : cont f a -> a <> 0 -> locally 0 (fun t => f t <> 0).
Proof.
  intros F A. destruct (Rtotal_order a 0) as [H | [H | H]]; [|contradiction|].
  - generalize (cont_neg f a F H). apply filter_imp. intros. lra.
  - generalize (cont_pos f a F H). apply filter_imp. intros. lra.
Qed.

Lemma small_plus f g a b : small f a -> small g b -> small (fun t => f t + g t) (a + b).
Proof. intros [F DF] [G DG]. split; [rewrite F, G; ring|]. exact (is_derive_plus f g 0 a b DF DG). Qed.
Lemma small_value f a b : small f a -> a = b -> small f b.
Proof. intros F <-. exact F. Qed.
Lemma small_0 : small (fun _ => 0) 0.
Proof. split; [reflexivity|]. apply (is_derive_const 0 0). Qed.

Lemma small_mult f g v c : small f v -> cont g c -> small (fun t => f t * g t) (v * c).
Proof.
  intros [Z D] [<- G]. split; [rewrite Z; ring|]. apply is_derive_Reals. apply is_derive_Reals in D.
  intros eps E.
  assert (P1 : 0 < Rabs (g 0) + 1) by (assert (X := Rabs_pos (g 0)); lra). assert (P2 : 0 < Rabs v + 1) by (assert (X := Rabs_pos v); lra).
  set (e1 := eps / (2 * (Rabs (g 0) + 1))). set (e2 := Rmin 1 (eps / (2 * (Rabs v + 1)))).
  assert (E1 : 0 < e1) by (apply Rdiv_lt_0_compat; lra).
  assert (E2 : 0 < e2) by (apply Rmin_pos; [lra | apply Rdiv_lt_0_compat; lra]).
  destruct (D e1 E1) as (d1 & D1). destruct (G e2 E2) as (d2 & D2p & D2).
  assert (M : 0 < Rmin d1 d2) by (apply Rmin_pos; [apply cond_pos | exact D2p]). exists (mkposreal _ M). intros h H L. cbn in L.
  assert (L1 : Rabs h < d1) by (eapply Rlt_le_trans; [exact L | apply Rmin_l]). assert (L2 : Rabs h < d2) by (eapply Rlt_le_trans; [exact L | apply Rmin_r]).
  specialize (D1 h H L1). rewrite Rplus_0_l, Z in D1 |- *. rewrite Rmult_0_l, !Rminus_0_r in *.
  assert (B : Rabs (g h - g 0) < e2).
  { specialize (D2 h). unfold dist, D_x, no_cond in D2. cbn in D2. unfold R_dist in D2. apply D2. split; [split; [exact I | auto]|]. rewrite Rminus_0_r. exact L2. }
  replace (f h * g h / h - v * g 0) with ((f h / h - v) * g h + v * (g h - g 0)) by (field; exact H).
  eapply Rle_lt_trans; [apply Rabs_triang|]. rewrite !Rabs_mult.
  assert (GH : Rabs (g h) <= Rabs (g 0) + 1).
  { replace (g h) with (g 0 + (g h - g 0)) by ring. eapply Rle_trans; [apply Rabs_triang|]. assert (e2 <= 1) by apply Rmin_l. lra. }
  assert (X1 : Rabs (f h / h - v) * Rabs (g h) <= Rabs (f h / h - v) * (Rabs (g 0) + 1)) by (apply Rmult_le_compat_l; [apply Rabs_pos | exact GH]).
  assert (X2 : Rabs (f h / h - v) * (Rabs (g 0) + 1) < e1 * (Rabs (g 0) + 1)) by (apply Rmult_lt_compat_r; assumption).
  assert (X3 : e1 * (Rabs (g 0) + 1) = eps / 2) by (unfold e1; field; lra).
  assert (X4 : Rabs v * Rabs (g h - g 0) <= Rabs v * e2) by (apply Rmult_le_compat_l; [apply Rabs_pos | lra]).
  assert (X5 : Rabs v * e2 <= (Rabs v + 1) * (eps / (2 * (Rabs v + 1)))).
  { apply Rmult_le_compat; [apply Rabs_pos | lra | lra | apply Rmin_r]. }
  assert (X6 : (Rabs v + 1) * (eps / (2 * (Rabs v + 1))) = eps / 2) by (field; lra). lra.
Qed.
Lemma small_mult_l f g v c : cont g c -> small f v -> small (fun t => g t * f t) (c * v).
Proof.
  intros G F. destruct (small_mult f g v c F G) as [Z D]. split; [rewrite Rmult_comm; exact Z|]. rewrite Rmult_comm.
  eapply is_derive_ext; [|exact D]. intros t. apply Rmult_comm.
Qed.

Ltac ct := repeat first
  [ eassumption | apply cont_const | apply cont_minus | apply cont_plus | apply cont_opp | apply cont_mult
  | match goal with H : small ?f _ |- cont ?f _ => exact (small_cont _ _ H) end ].

(** ** Families of rays through the axis *)
Definition sense (e : R) : Prop := e = 1 \/ e = -1.
Record axial (x d : R -> vec3) (z e hx hy ux uy : R) : Prop := mkAxial {
  ax_x : small (fun t => vx (x t)) hx; ax_y : small (fun t => vy (x t)) hy;
  ax_dx : small (fun t => vx (d t)) ux; ax_dy : small (fun t => vy (d t)) uy;
  ax_z : cont (fun t => vz (x t)) z; ax_dz : cont (fun t => vz (d t)) e }.

Lemma axial_move x d z e hx hy ux uy T T0 : axial x d z e hx hy ux uy -> cont T T0 ->
  axial (fun t => vadd (x t) (vscale (T t) (d t))) d (z + T0 * e) e (hx + T0 * ux) (hy + T0 * uy) ux uy.
Proof.
  intros [A B C D E F] H. constructor; try assumption; cbn [vx vy vz vadd vscale].
  - apply small_plus; [exact A|]. apply small_mult_l; assumption.
  - apply small_plus; [exact B|]. apply small_mult_l; assumption.
  - ct.
Qed.

(** What a shape does near its vertex. *)
Definition meets (intercept : vec3 -> vec3 -> option vec3) : Prop := forall x d z e hx hy ux uy, sense e -> axial x d z e hx hy ux uy ->
  exists T, cont T (- z * e) /\ locally 0 (fun t => intercept (x t) (d t) = Some (vadd (x t) (vscale (T t) (d t)))).
Definition curved (normal : vec3 -> option vec3) (cx cy : R) : Prop := forall x hx hy, small (fun t => vx (x t)) hx -> small (fun t => vy (x t)) hy ->
  exists u, small (fun t => vx (u t)) (cx * hx) /\ small (fun t => vy (u t)) (cy * hy) /\ cont (fun t => vz (u t)) (-1) /\
    locally 0 (fun t => normal (x t) = Some (u t)).

Ltac sense_cases H := destruct H as [H | H]; subst.

Lemma flat_meets : meets flat_intercept.
Proof.
  intros x d z e hx hy ux uy S [A B C D E F]. exists (fun t => - vz (x t) / vz (d t)). split.
  - assert (N : e <> 0) by (sense_cases S; lra). apply (cont_value _ (- z / e)); [|sense_cases S; field; lra].
    apply cont_div; [ct | exact F | exact N].
  - assert (N : e <> 0) by (sense_cases S; lra). generalize (cont_nz _ _ F N). apply filter_imp. intros t Z. unfold flat_intercept. rewrite odiv_nz by exact Z. reflexivity.
Qed.
Lemma flat_curved : curved flat_normal 0 0.
Proof.
  intros x hx hy A B. exists (fun _ => V3 0 0 (-1)). cbn. rewrite !Rmult_0_l. split; [apply small_0|]. split; [apply small_0|]. split; [apply cont_const|].
  apply filter_forall. reflexivity.
Qed.

(** The sign of a continuous function is constant around. *)
Lemma sign_around f a : cont f a -> a <> 0 -> locally 0 (fun t => rsign (f t) = rsign a).
Proof.
  intros F A. destruct (Rtotal_order a 0) as [H | [H | H]]; [|contradiction|].
  - generalize (cont_neg f a F H). apply filter_imp. intros t T. rewrite !rsign_neg by assumption. reflexivity.
  - generalize (cont_pos f a F H). apply filter_imp. intros t T. rewrite !rsign_pos by assumption. reflexivity.
Qed.
Lemma sign_root r e : r <> 0 -> sense e -> rsign (r * e) * sqrt (r * r) = e * r.
Proof.
  intros R0 S. change (r * r) with (Rsqr r). rewrite (sqrt_Rsqr_abs r). 
  assert (RA := rsign_abs r). sense_cases S.
  - rewrite Rmult_1_r. destruct (Rtotal_order r 0) as [H | [H | H]]; [| contradiction |].
    + rewrite rsign_neg by lra. rewrite Rabs_left by lra. ring.
    + rewrite rsign_pos by lra. rewrite Rabs_right by lra. ring.
  - destruct (Rtotal_order r 0) as [H | [H | H]]; [| contradiction |].
    + rewrite rsign_pos by lra. rewrite Rabs_left by lra. ring.
    + rewrite rsign_neg by lra. rewrite Rabs_right by lra. ring.
Qed.

Lemma sphere_meets r : r <> 0 -> meets (sphere_intercept r).
Proof.
  intros R0 x d z e hx hy ux uy S [A B C D E F]. assert (SE : e * e = 1) by (sense_cases S; ring). assert (NE : e <> 0) by (sense_cases S; lra).
  set (up := fun t => vx (d t) * vx (x t) + vy (d t) * vy (x t) + vz (d t) * (vz (x t) - r)).
  set (disc := fun t => up t * up t - (vx (x t) * vx (x t) + vy (x t) * vy (x t) + (vz (x t) - r) * (vz (x t) - r) - r * r)).
  assert (UP : cont up (e * (z - r))) by (eapply cont_value; [unfold up; ct | ring]).
  assert (DI : cont disc (r * r)).
  { eapply cont_value; [unfold disc; ct|]. transitivity ((e * e - 1) * (z - r) * (z - r) + r * r); [ring | rewrite SE; ring]. }
  assert (RR : 0 < r * r) by nra.
  exists (fun t => - up t - rsign (r * e) * sqrt (disc t)). split.
  - eapply cont_value; [apply cont_minus; [apply cont_opp; exact UP | apply cont_mult; [apply cont_const | apply cont_sqrt; [exact DI | lra]]] |].
    rewrite sign_root by assumption. ring.
  - assert (SG : cont (fun t => r * vz (d t)) (r * e)) by ct.
    generalize (filter_and _ _ (cont_pos _ _ DI RR) (sign_around _ _ SG ltac:(apply Rmult_integral_contrapositive; split; assumption))).
    apply filter_imp. intros t [P Q]. unfold sphere_intercept. cbn [vx vy vz]. fold (up t). fold (disc t).
    rewrite osqrt_nonneg by lra. cbn [obind]. rewrite Q. reflexivity.
Qed.
Lemma sphere_curved r : r <> 0 -> curved (sphere_normal r) (1 / r) (1 / r).
Proof.
  intros R0 x hx hy A B. 
  set (w := fun t => 1 - 1 / r * vx (x t) * (1 / r * vx (x t)) - 1 / r * vy (x t) * (1 / r * vy (x t))).
  assert (W : cont w 1) by (eapply cont_value; [unfold w; ct | ring]).
  exists (fun t => V3 (1 / r * vx (x t)) (1 / r * vy (x t)) (- sqrt (w t))). cbn [vx vy vz].
  split; [apply (small_mult_l (fun t => vx (x t))); [apply cont_const | exact A]|]. split; [apply (small_mult_l (fun t => vy (x t))); [apply cont_const | exact B]|].
  split; [apply cont_opp; apply (cont_value _ (sqrt 1)); [apply cont_sqrt; [exact W | lra] | exact sqrt_1]|].
  generalize (cont_pos _ _ W ltac:(lra)). apply filter_imp. intros t P. unfold sphere_normal. rewrite odiv_nz by exact R0. cbn [obind]. cbv zeta.
  fold (w t). rewrite osqrt_nonneg by lra. reflexivity.
Qed.

(** *** Conics *)
Lemma around_lt f a b : cont f a -> a < b -> locally 0 (fun t => f t < b).
Proof.
  intros F A. assert (X : cont (fun t => b - f t) (b - a)) by ct. generalize (cont_pos _ _ X ltac:(lra)). apply filter_imp. intros t. lra.
Qed.
Lemma cont_abs f a : cont f a -> cont (fun t => Rabs (f t)) (Rabs a).
Proof. intros [<- F]. split; [reflexivity|]. apply (continuity_pt_comp f Rabs 0 F). apply Rcontinuity_abs. Qed.

Lemma conic_meets r k : r <> 0 -> 1 / 10 ^ 12 < Rabs ((1 + k) / r) -> meets (conic_intercept r k).
Proof.
  intros R0 K x d z e hx hy ux uy S [A B C D E F]. assert (SE : e * e = 1) by (sense_cases S; ring). assert (NE : e <> 0) by (sense_cases S; lra).
  set (c := 1 / r). assert (C0 : c <> 0) by (unfold c, Rdiv; rewrite Rmult_1_l; apply Rinv_neq_0_compat; exact R0).
  set (q := c * (1 + k)). assert (QK : (1 + k) / r = q) by (unfold q, c; field; exact R0). rewrite QK in K.
  assert (Q0 : q <> 0) by (intros Z; rewrite Z, Rabs_R0 in K; lra).
  set (a := fun t => conic_a c k (d t)). set (b := fun t => conic_b c k (x t) (d t)). set (cc := fun t => conic_cc c k (x t)).
  assert (CA : cont a q).
  { eapply cont_value; [unfold a, conic_a; ct|]. unfold q. transitivity (c * (1 + k) * (e * e)); [ring | rewrite SE; ring]. }
  assert (CB : cont b (2 * (q * z * e - e))) by (eapply cont_value; [unfold b, conic_b; ct | unfold q; ring]).
  assert (CC : cont cc (q * (z * z) - 2 * z)) by (eapply cont_value; [unfold cc, conic_cc; ct | unfold q; ring]).
  set (disc := fun t => b t * b t - 4 * a t * cc t).
  assert (CD : cont disc 4).
  { eapply cont_value; [unfold disc; ct|]. transitivity (4 * (e * e) * (q * z - 1) * (q * z - 1) - 4 * q * (q * (z * z) - 2 * z)); [ring | rewrite SE; ring]. }
  assert (S4 : sqrt 4 = 2) by (replace 4 with (2 * 2) by ring; apply sqrt_square; lra).
  assert (CS : cont (fun t => sqrt (disc t)) 2) by (rewrite <- S4; apply cont_sqrt; [exact CD | lra]).
  set (T := fun s t => (- b t + s * sqrt (disc t)) / (2 * a t)).
  assert (CT : forall s, cont (T s) ((e + s) / q - z * e)).
  { intros s. apply (cont_value _ ((- (2 * (q * z * e - e)) + s * 2) / (2 * q))); [|field; exact Q0].
    apply cont_div; [ct | ct |]. apply Rmult_integral_contrapositive. split; [lra | exact Q0]. }
  assert (CZ : forall s, cont (fun t => vz (ray_at (x t) (d t) (T s t))) ((1 + s * e) / q)).
  { intros s. eapply cont_value; [cbn [ray_at vadd vscale vz]; apply cont_plus; [exact E | apply cont_mult; [apply CT | exact F]]|].
    transitivity (z * (1 - e * e) + (e * e + s * e) / q); [field; exact Q0 | rewrite SE; field; exact Q0]. }
  assert (CX : forall s, cont (fun t => vx (ray_at (x t) (d t) (T s t))) 0).
  { intros s. eapply cont_value; [cbn [ray_at vadd vscale vx]; apply cont_plus; [exact (small_cont _ _ A) | apply cont_mult; [apply CT | exact (small_cont _ _ C)]]|]. ring. }
  assert (CY : forall s, cont (fun t => vy (ray_at (x t) (d t) (T s t))) 0).
  { intros s. eapply cont_value; [cbn [ray_at vadd vscale vy]; apply cont_plus; [exact (small_cont _ _ B) | apply cont_mult; [apply CT | exact (small_cont _ _ D)]]|]. ring. }
  assert (DEG : locally 0 (fun t => conic_degenerate c k (d t) = false /\ a t <> 0 /\ 0 < disc t)).
  { assert (X : cont (fun t => Rabs (a t) - 1 / 10 ^ 12) (Rabs q - 1 / 10 ^ 12)) by (apply cont_minus; [apply cont_abs; exact CA | apply cont_const]).
    generalize (filter_and _ _ (cont_pos _ _ X (Rlt_Rminus _ _ K)) (cont_pos _ _ CD ltac:(lra))). apply filter_imp. intros t [H H'].
    unfold conic_degenerate. fold (a t). destruct (Rlt_dec (Rabs (a t)) (1 / 10 ^ 12)) as [L | L]; [lra|]. split; [reflexivity|]. split; [|exact H'].
    intros Z. rewrite Z, Rabs_R0 in H. lra. }
  assert (ROOT : forall s t, conic_degenerate c k (d t) = false -> a t <> 0 -> 0 < disc t -> conic_root c k (x t) (d t) s =
    let p := ray_at (x t) (d t) (T s t) in if Rle_dec 0 (vz p * (c * (vx p * vx p + vy p * vy p) - vz p)) then Some (T s t) else None).
  { intros s t H1 H2 H3. unfold conic_root. cbv zeta. fold (a t). fold (b t). fold (cc t). change (conic_disc c k (x t) (d t)) with (disc t).
    destruct (Rle_dec 0 (disc t)) as [L | L]; [|lra]. cbn [obind]. rewrite H1. rewrite odiv_nz by (apply Rmult_integral_contrapositive; split; [lra | exact H2]). reflexivity. }
  (* the vertex *)
  assert (GOOD : locally 0 (fun t => conic_root c k (x t) (d t) (- e) = Some (T (- e) t))).
  { assert (Z0 : cont (fun t => 1 - q * vz (ray_at (x t) (d t) (T (- e) t))) 1).
    { eapply cont_value; [apply cont_minus; [apply cont_const | apply cont_mult; [apply cont_const | apply CZ]]|].
      replace (1 + - e * e) with (1 - e * e) by ring. rewrite SE. field. exact Q0. }
    generalize (filter_and _ _ DEG (cont_pos _ _ Z0 ltac:(lra))). apply filter_imp. intros t ((H1 & H2 & H3) & P). rewrite ROOT by assumption. cbv zeta.
    set (p := ray_at (x t) (d t) (T (- e) t)) in *.
    assert (ON : c * (vx p * vx p + vy p * vy p) + q * (vz p * vz p) - 2 * vz p = 0).
    { assert (QE : a t * (T (- e) t * T (- e) t) + b t * T (- e) t + cc t = 0).
      { assert (SD : sqrt (disc t) * sqrt (disc t) = disc t) by (apply sqrt_sqrt; lra).
        unfold T. set (w := sqrt (disc t)) in *.
        transitivity ((e * e * (w * w) - (b t * b t - 4 * a t * cc t)) / (4 * a t)); [field; exact H2|]. rewrite SE, SD. unfold disc. field. exact H2. }
      rewrite <- QE. unfold p, q, a, b, cc, conic_a, conic_b, conic_cc, ray_at. cbn [vadd vscale vx vy vz]. ring. }
    destruct (Rle_dec 0 (vz p * (c * (vx p * vx p + vy p * vy p) - vz p))) as [L | L]; [reflexivity|]. exfalso. apply L.
    replace (vz p * (c * (vx p * vx p + vy p * vy p) - vz p)) with (vz p * vz p * (1 - q * vz p)) by nra.
    apply Rmult_le_pos; [nra | lra]. }
  (* the other end *)
  assert (BAD : locally 0 (fun t => conic_root c k (x t) (d t) e = None)).
  { set (v := fun t => let p := ray_at (x t) (d t) (T e t) in vz p * (c * (vx p * vx p + vy p * vy p) - vz p)).
    assert (V : cont v (- ((2 / q) * (2 / q)))).
    { eapply cont_value; [unfold v; cbv zeta; apply cont_mult; [apply CZ|]; apply cont_minus; [|apply CZ]; apply cont_mult; [apply cont_const|];
        apply cont_plus; apply cont_mult; first [apply CX | apply CY]|]. 
      rewrite SE. field. exact Q0. }
    assert (NV : - (2 / q * (2 / q)) < 0).
    { assert (2 / q <> 0) by (apply Rmult_integral_contrapositive; split; [lra | apply Rinv_neq_0_compat; exact Q0]). nra. }
    generalize (filter_and _ _ DEG (cont_neg _ _ V NV)). apply filter_imp. intros t ((H1 & H2 & H3) & P). rewrite ROOT by assumption. cbv zeta.
    unfold v in P. cbv zeta in P. destruct (Rle_dec 0 _) as [L | L]; [lra | reflexivity]. }
  exists (T (- e)). split.
  - eapply cont_value; [apply CT|]. field. exact Q0.
  - generalize (filter_and _ _ GOOD BAD). apply filter_imp. intros t [G B']. unfold conic_intercept. rewrite odiv_nz by exact R0. cbn [obind]. fold c.
    unfold conic_t. sense_cases S.
    + replace (- (1)) with (-1) in * by ring. rewrite G, B'. reflexivity.
    + replace (- -1) with 1 in * by ring. rewrite G, B'. reflexivity.
Qed.

Lemma conic_curved r k : r <> 0 -> curved (conic_normal r k) (1 / r) (1 / r).
Proof.
  intros R0 x hx hy A B. set (c := 1 / r).
  set (w := fun t => 1 - (1 + k) * (c * c) * (vx (x t) * vx (x t) + vy (x t) * vy (x t))).
  assert (W : cont w 1) by (eapply cont_value; [unfold w; ct | ring]).
  assert (G : cont (fun t => sqrt (w t)) 1) by (apply (cont_value _ (sqrt 1)); [apply cont_sqrt; [exact W | lra] | exact sqrt_1]).
  set (m := fun t => V3 (c * vx (x t) / sqrt (w t)) (c * vy (x t) / sqrt (w t)) (-1)).
  assert (IG : cont (fun t => / sqrt (w t)) 1).
  { apply (cont_value (fun t => / sqrt (w t)) (1 / 1)); [|field]. 
    assert (X : cont (fun t => 1 / sqrt (w t)) (1 / 1)) by (apply cont_div; [apply cont_const | exact G | lra]).
    destruct X as [X1 X2]. split; [rewrite <- X1; unfold Rdiv; ring|]. eapply continuity_pt_ext; [|exact X2]. intros t. unfold Rdiv. ring. }
  assert (MX : small (fun t => vx (m t)) (c * hx)).
  { apply (small_value _ (c * hx * 1)); [|ring]. unfold m. cbn [vx]. unfold Rdiv. apply (small_mult (fun t => c * vx (x t))); [|exact IG].
    apply (small_mult_l (fun t => vx (x t))); [apply cont_const | exact A]. }
  assert (MY : small (fun t => vy (m t)) (c * hy)).
  { apply (small_value _ (c * hy * 1)); [|ring]. unfold m. cbn [vy]. unfold Rdiv. apply (small_mult (fun t => c * vy (x t))); [|exact IG].
    apply (small_mult_l (fun t => vy (x t))); [apply cont_const | exact B]. }
  assert (ML : cont (fun t => vlen (m t)) 1).
  { unfold vlen. apply (cont_value _ (sqrt 1)); [|exact sqrt_1]. apply cont_sqrt; [|lra]. eapply cont_value.
    - unfold dot. apply cont_plus; [apply cont_plus|]; apply cont_mult; first [exact (small_cont _ _ MX) | exact (small_cont _ _ MY) | apply (cont_const (-1))].
    - ring. }
  assert (IM : cont (fun t => 1 / vlen (m t)) 1) by (apply (cont_value _ (1 / 1)); [apply cont_div; [apply cont_const | exact ML | lra] | field]).
  exists (fun t => vscale (1 / vlen (m t)) (m t)). cbn [vscale vx vy vz].
  split; [apply (small_value _ (1 * (c * hx))); [apply (small_mult_l (fun t => vx (m t))); assumption | ring]|].
  split; [apply (small_value _ (1 * (c * hy))); [apply (small_mult_l (fun t => vy (m t))); assumption | ring]|].
  split; [apply (cont_value _ (1 * -1)); [apply cont_mult; [exact IM | apply cont_const] | ring]|].
  generalize (filter_and _ _ (filter_and _ _ (cont_pos _ _ W Rlt_0_1) (cont_pos _ _ G Rlt_0_1)) (cont_pos _ _ ML Rlt_0_1)).
  apply filter_imp. intros t [[H1 H2] H3]. unfold conic_normal. rewrite odiv_nz by exact R0. cbn [obind]. fold c. fold (w t).
  rewrite osqrt_nonneg by (apply Rlt_le; exact H1). cbn [obind]. rewrite !odiv_nz by (apply Rgt_not_eq; exact H2). cbn [obind]. cbv zeta. fold (m t). rewrite odiv_nz by (apply Rgt_not_eq; exact H3). reflexivity.
Qed.

(** *** Paraboloids and cylinders *)
Lemma parabola_meets f : f <> 0 -> meets (parabola_intercept f).
Proof.
  intros F0 x d z e hx hy ux uy S [A B C D E F]. assert (SE : e * e = 1) by (sense_cases S; ring). assert (NE : e <> 0) by (sense_cases S; lra).
  assert (N : 4 * f * e <> 0) by (repeat (apply Rmult_integral_contrapositive; split); lra).
  exists (fun t => (vx (x t) * vx (x t) + vy (x t) * vy (x t) - 4 * f * vz (x t)) / (4 * f * vz (d t))). split.
  - apply (cont_value _ ((0 * 0 + 0 * 0 - 4 * f * z) / (4 * f * e))).
    + apply cont_div; [ct | ct | exact N].
    + transitivity (- z * (e * e) / e); [rewrite SE; field; split; assumption | field; exact NE].
  - assert (U : cont (fun t => vx (d t) * vx (d t) + vy (d t) * vy (d t)) 0) by (eapply cont_value; [ct | ring]).
    assert (P10 : 0 < 1 / 10 ^ 10) by (apply Rdiv_lt_0_compat; [lra | apply pow_lt; lra]).
    assert (V : cont (fun t => 4 * f * vz (d t)) (4 * f * e)) by ct.
    generalize (filter_and _ _ (around_lt _ _ _ U P10) (cont_nz _ _ V N)). apply filter_imp. intros t [H1 H2]. unfold parabola_intercept. cbv zeta.
    destruct (Rlt_dec (1 / 10 ^ 10) _) as [L | L]; [exfalso; exact (Rlt_asym _ _ L H1)|]. rewrite odiv_nz by exact H2. reflexivity.
Qed.
Lemma parabola_curved f : f <> 0 -> curved (parabola_normal f) (1 / (2 * f)) (1 / (2 * f)).
Proof.
  intros F0 x hx hy A B. set (r := 2 * f). assert (R0 : r <> 0) by (unfold r; lra).
  set (w := fun t => vx (x t) / r * (vx (x t) / r) + vy (x t) / r * (vy (x t) / r) + 1).
  assert (D : forall g v, cont g v -> cont (fun t => g t / r) (v / r)) by (intros g v G; apply cont_div; [exact G | apply cont_const | exact R0]).
  assert (W : cont w 1).
  { eapply cont_value; [unfold w; apply cont_plus; [apply cont_plus; apply cont_mult; apply D; first [exact (small_cont _ _ A) | exact (small_cont _ _ B)] | apply cont_const]|].
    field. exact R0. }
  assert (G : cont (fun t => sqrt (w t)) 1) by (apply (cont_value _ (sqrt 1)); [apply cont_sqrt; [exact W | lra] | exact sqrt_1]).
  assert (Q : cont (fun t => 1 / sqrt (w t)) 1) by (apply (cont_value _ (1 / 1)); [apply cont_div; [apply cont_const | exact G | lra] | field]).
  assert (Q' : cont (fun t => 1 / sqrt (w t) * (1 / r)) (1 * (1 / r))) by (apply cont_mult; [exact Q | apply cont_const]).
  exists (fun t => V3 (vx (x t) * (1 / sqrt (w t)) * (1 / r)) (vy (x t) * (1 / sqrt (w t)) * (1 / r)) (- r * (1 / sqrt (w t)) * (1 / r))). cbn [vx vy vz].
  split; [apply (small_value _ (hx * 1 * (1 / r))); [apply (small_mult (fun t => vx (x t) * (1 / sqrt (w t)))); [apply small_mult; assumption | apply cont_const] | ring]|].
  split; [apply (small_value _ (hy * 1 * (1 / r))); [apply (small_mult (fun t => vy (x t) * (1 / sqrt (w t)))); [apply small_mult; assumption | apply cont_const] | ring]|].
  split; [apply (cont_value _ (- r * 1 * (1 / r))); [apply cont_mult; [apply cont_mult; [apply cont_const | exact Q] | apply cont_const] | field; exact R0]|].
  generalize (cont_pos _ _ G Rlt_0_1). apply filter_imp. intros t H. unfold parabola_normal. cbv zeta. fold r. rewrite !odiv_nz by exact R0. cbn [obind].
  fold (w t). rewrite odiv_nz by (apply Rgt_not_eq; exact H). reflexivity.
Qed.

Lemma cylinder_meets r : r <> 0 -> meets (cylinder_intercept r).
Proof.
  intros R0 x d z e hx hy ux uy S [A B C D E F]. assert (SE : e * e = 1) by (sense_cases S; ring). assert (NE : e <> 0) by (sense_cases S; lra).
  set (na := fun t => cross (d t) (V3 0 1 0)). set (b := fun t => vsub (V3 0 0 r) (x t)).
  set (na2 := fun t => dot (na t) (na t)). set (nb := fun t => dot (na t) (cross (b t) (V3 0 1 0))).
  set (disc := fun t => na2 t * (r * r) - dot (b t) (na t) * dot (b t) (na t)).
  assert (C2 : cont na2 1).
  { eapply cont_value; [unfold na2, na, dot, cross; cbn [vx vy vz]; ct|]. transitivity (e * e); [ring | exact SE]. }
  assert (CB : cont nb (e * (r - z))) by (eapply cont_value; [unfold nb, na, b, dot, cross, vsub; cbn [vx vy vz]; ct | ring]).
  assert (CD : cont disc (r * r)).
  { eapply cont_value; [unfold disc; apply cont_minus; [apply cont_mult; [exact C2 | apply cont_const]|]; unfold na, b, dot, cross, vsub; cbn [vx vy vz]; ct|]. ring. }
  assert (RR : 0 < r * r) by nra.
  exists (fun t => (nb t - rsign (r * e) * sqrt (disc t)) / na2 t). split.
  - apply (cont_value _ ((e * (r - z) - rsign (r * e) * sqrt (r * r)) / 1)).
    + apply cont_div; [|exact C2 | lra]. apply cont_minus; [exact CB | apply cont_mult; [apply cont_const | apply cont_sqrt; [exact CD | lra]]].
    + rewrite sign_root by assumption. field.
  - assert (SG : cont (fun t => r * vz (d t)) (r * e)) by ct.
    assert (RE : r * e <> 0) by (apply Rmult_integral_contrapositive; split; assumption).
    generalize (filter_and _ _ (filter_and _ _ (cont_pos _ _ CD RR) (cont_pos _ _ C2 Rlt_0_1)) (sign_around _ _ SG RE)).
    apply filter_imp. intros t [[P Q] H]. unfold cylinder_intercept. cbv zeta. fold (b t). fold (na t). fold (na2 t). fold (nb t). fold (disc t).
    destruct (Rlt_dec 0 (disc t)) as [L | L]; [|contradiction]. rewrite odiv_nz by (apply Rgt_not_eq; exact Q). cbn [obind]. rewrite H. reflexivity.
Qed.
Lemma cylinder_curved r : r <> 0 -> curved (cylinder_normal r) (1 / r) 0.
Proof.
  intros R0 x hx hy A B. set (w := fun t => 1 - vx (x t) / r * (vx (x t) / r)).
  assert (W : cont w 1).
  { eapply cont_value; [unfold w; apply cont_minus; [apply cont_const | apply cont_mult; (apply cont_div; [exact (small_cont _ _ A) | apply cont_const | exact R0])]|]. field. exact R0. }
  exists (fun t => V3 (vx (x t) / r) 0 (- sqrt (w t))). cbn [vx vy vz].
  split; [apply (small_value _ (hx * / r)); [apply (small_mult (fun t => vx (x t))); [exact A | apply (cont_const (/ r))] | unfold Rdiv; ring]|].
  split; [rewrite Rmult_0_l; apply small_0|].
  split; [apply cont_opp; apply (cont_value _ (sqrt 1)); [apply cont_sqrt; [exact W | lra] | exact sqrt_1]|].
  generalize (cont_pos _ _ W Rlt_0_1). apply filter_imp. intros t P. unfold cylinder_normal. rewrite odiv_nz by exact R0. cbn [obind].
  fold (w t). rewrite osqrt_nonneg by (apply Rlt_le; exact P). reflexivity.
Qed.

Lemma class_near solver k cx cy : class_curvature k cx cy -> meets (class_intercept solver k) /\ curved (class_normal k) cx cy.
Proof.
  destruct k; cbn [class_curvature class_intercept class_normal].
  - intros [-> ->]. split; [exact flat_meets | exact flat_curved].
  - intros (R & -> & ->). split; [apply sphere_meets | apply sphere_curved]; exact R.
  - intros (R & K & -> & ->). split; [apply conic_meets; assumption | apply conic_curved; exact R].
  - intros (R & -> & ->). split; [apply parabola_meets | apply parabola_curved]; exact R.
  - intros (R & -> & ->). split; [apply cylinder_meets | apply cylinder_curved]; exact R.
  - intros [].
Qed.

(** ** Refraction and reflection *)
Lemma snell_near a u e cx cy ux uy n1 n2 m : sense e -> 0 < n1 -> 0 < n2 -> (m = true -> n1 = n2) ->
  small (fun t => vx (a t)) ux -> small (fun t => vy (a t)) uy -> cont (fun t => vz (a t)) e ->
  small (fun t => vx (u t)) cx -> small (fun t => vy (u t)) cy -> cont (fun t => vz (u t)) (-1) ->
  let e' := if m then - e else e in
  exists b, locally 0 (fun t => snells_law (a t) n1 n2 m (u t) = Some (b t)) /\
    small (fun t => vx (b t)) ((n1 * ux - (n2 * e' - n1 * e) * cx) / n2) /\ small (fun t => vy (b t)) ((n1 * uy - (n2 * e' - n1 * e) * cy) / n2) /\
    cont (fun t => vz (b t)) e'.
Proof.
  intros S N1 N2 M AX AY AZ UX UY UZ e'. assert (SE : e * e = 1) by (sense_cases S; ring). assert (NE : e <> 0) by (sense_cases S; lra).
  assert (NE' : - e <> 0) by lra. set (r := n1 / n2). assert (R0 : 0 < r) by (apply Rdiv_lt_0_compat; assumption).
  assert (AU : cont (fun t => dot (a t) (u t)) (- e)) by (eapply cont_value; [unfold dot; ct | ring]).
  set (w := fun t => snell_radicand (a t) n1 n2 (u t)).
  assert (R1 : 0 < 1 / (r * r)) by (apply Rdiv_lt_0_compat; nra).
  assert (W : cont w (1 / (r * r))).
  { eapply cont_value; [unfold w, snell_radicand; cbv zeta; fold r; apply cont_minus; [apply cont_plus; [apply cont_const | apply cont_mult; exact AU] | unfold dot; ct]|]. ring. }
  assert (SW : sqrt (1 / (r * r)) = 1 / r).
  { replace (1 / (r * r)) with (1 / r * (1 / r)) by (field; lra). apply sqrt_square. left. apply Rdiv_lt_0_compat; lra. }
  set (mm := if m then 1 else 0).
  set (d := fun t => - dot (a t) (u t) + e * (2 * mm - 1) * sqrt (w t)).
  assert (D : cont d (e + e * (2 * mm - 1) * (1 / r))).
  { eapply cont_value; [unfold d; apply cont_plus; [apply cont_opp; exact AU | apply cont_mult; [apply cont_const | apply cont_sqrt; [exact W | lra]]]|]. rewrite SW. ring. }
  assert (K : r * (e + e * (2 * mm - 1) * (1 / r)) = - (n2 * e' - n1 * e) / n2).
  { unfold r, mm, e'. destruct m; [rewrite (M eq_refl)|]; field; lra. }
  exists (fun t => V3 (r * (vx (a t) + d t * vx (u t))) (r * (vy (a t) + d t * vy (u t))) (r * (vz (a t) + d t * vz (u t)))). cbn [vx vy vz]. split; [|split; [|split]].
  - generalize (filter_and _ _ (cont_pos _ _ W R1) (filter_and _ _ (sign_around _ _ AU NE') (cont_nz _ _ AU NE'))). apply filter_imp. intros t (P & Q & Z).
    unfold snells_law. destruct (Req_EM_T n1 0) as [X | _]; [lra|]. destruct (Req_EM_T n2 0) as [X | _]; [lra|]. cbv zeta. fold r. fold mm. fold (w t).
    rewrite osqrt_nonneg by (apply Rlt_le; exact P). cbn [obind].
    assert (CS : - copysign1 (dot (a t) (u t)) = e).
    { revert Q Z. generalize (dot (a t) (u t)). intros y Q Z. sense_cases S.
      - rewrite (rsign_neg (- (1))) in Q by lra. destruct (Rtotal_order y 0) as [H | [H | H]]; [rewrite copysign1_neg by exact H; ring | contradiction | rewrite rsign_pos in Q by exact H; lra].
      - rewrite (rsign_pos (- (-1))) in Q by lra. destruct (Rtotal_order y 0) as [H | [H | H]]; [rewrite rsign_neg in Q by exact H; lra | contradiction | rewrite copysign1_pos by lra; ring]. }
    rewrite CS. reflexivity.
  - eapply small_value; [apply (small_mult_l (fun t => vx (a t) + d t * vx (u t))); [apply cont_const | apply small_plus; [exact AX | apply small_mult_l; [exact D | exact UX]]]|].
    transitivity (r * ux + r * (e + e * (2 * mm - 1) * (1 / r)) * cx); [ring|]. rewrite K. unfold r. field. lra.
  - eapply small_value; [apply (small_mult_l (fun t => vy (a t) + d t * vy (u t))); [apply cont_const | apply small_plus; [exact AY | apply small_mult_l; [exact D | exact UY]]]|].
    transitivity (r * uy + r * (e + e * (2 * mm - 1) * (1 / r)) * cy); [ring|]. rewrite K. unfold r. field. lra.
  - eapply cont_value; [apply cont_mult; [apply cont_const | apply cont_plus; [exact AZ | apply cont_mult; [exact D | exact UZ]]]|].
    transitivity (r * e - r * (e + e * (2 * mm - 1) * (1 / r))); [ring|]. rewrite K. unfold r. field. lra.
Qed.

(** ** A surface *)
Definition runs (f : R -> ray) (n : R) (x d : R -> vec3) : Prop :=
  locally 0 (fun t => r_position (f t) = Some (x t) /\ r_direction (f t) = Some (d t) /\ r_index (f t) = n).

Lemma local_near solver s k cx cy f n x d z e hx hy ux uy : sf_sag s = make_sag solver k None -> sf_rulings s = None -> class_curvature k cx cy ->
  sense e -> 0 < n -> runs f n x d -> axial x d z e hx hy ux uy ->
  let m := mat_is_mirror (sf_material s) in let e' := if m then - e else e in
  forall n', 0 < n' -> (m = true -> n = n') -> (forall r, r_index r = n -> mat_index (sf_material s) r = n') ->
  let kx := hx - z * e * ux in let ky := hy - z * e * uy in
  exists x' d', runs (fun t => surface_local s (f t)) n' x' d' /\
    axial x' d' 0 e' kx ky ((n * ux - (n' * e' - n * e) * (cx * kx)) / n') ((n * uy - (n' * e' - n * e) * (cy * ky)) / n').
Proof.
  intros SG RL CC S N0 RN AX m e' n' N1 M MI kx ky.
  destruct (class_near solver k cx cy CC) as [ME CU].
  destruct (ME _ _ _ _ _ _ _ _ S AX) as (T & CT & LT).
  assert (AM := axial_move _ _ _ _ _ _ _ _ _ _ AX CT). set (x' := fun t => vadd (x t) (vscale (T t) (d t))) in *.
  destruct AM as [A B C D E F].
  destruct (CU x' _ _ A B) as (u & U1 & U2 & U3 & LU).
  destruct (snell_near d u e _ _ ux uy n n' m S N0 N1 M C D F U1 U2 U3) as (b & LB & B1 & B2 & B3).
  assert (KX : hx + - z * e * ux = kx) by (unfold kx; ring). assert (KY : hy + - z * e * uy = ky) by (unfold ky; ring). rewrite KX in *. rewrite KY in *.
  exists x', b. split.
  - unfold runs in *. generalize (filter_and _ _ RN (filter_and _ _ LT (filter_and _ _ LU LB))). apply filter_imp. intros t ((P & Q & I) & IT & NO & SN).
    unfold surface_local, surface_incident. rewrite RL. cbv zeta.
    assert (P1 : r_position (sag_propagate (sf_sag s) (f t)) = Some (x' t)).
    { unfold sag_propagate. cbn [set_intensity set_position r_position]. rewrite P, Q. cbn [obind]. rewrite SG. unfold make_sag. cbn [sag_intercept]. unfold sag_intercept_t. destruct k; exact IT. }
    assert (Q1 : r_direction (sag_propagate (sf_sag s) (f t)) = Some (d t)) by (unfold sag_propagate; cbn [set_intensity set_position r_direction]; exact Q).
    assert (I1 : r_index (sag_propagate (sf_sag s) (f t)) = n) by (unfold sag_propagate; cbn [set_intensity set_position r_index]; exact I).
    assert (NN : surface_normal s (sag_propagate (sf_sag s) (f t)) = Some (u t)).
    { unfold surface_normal. rewrite P1. cbn [obind]. rewrite SG. exact NO. }
    rewrite NN, Q1, I1, (MI _ I1), P1. cbn [obind]. fold m. rewrite SN.
    destruct (sf_aperture s) as [ap|]; [unfold clip_rays, set_unvignetted|]; cbn [r_position r_direction r_index]; auto.
  - constructor; try assumption. apply (cont_value _ (z + - z * e * e)); [exact E|].
    assert (SE : e * e = 1) by (sense_cases S; ring). transitivity (z * (1 - e * e)); [ring | rewrite SE; ring].
Qed.

(** The coordinates of a centred surface. *)
Definition turn (e1 e2 e z : R) : rigid := mkRigid (M3 (V3 e1 0 0) (V3 0 e2 0) (V3 0 0 e)) (V3 0 0 z).
Lemma turn_inverse e1 e2 e z : rigid_inv (turn e1 e2 e z) = turn e1 e2 e (- (e * z)).
Proof.
  unfold rigid_inv, turn, vopp, mapply, mtrans, dot. cbn [rg_mat rg_shift mr1 mr2 mr3 vx vy vz]. f_equal. f_equal; ring.
Qed.
Lemma turn_near e1 e2 e z0 f n x d z s hx hy ux uy : runs f n x d -> axial x d z s hx hy ux uy ->
  exists x' d', runs (fun t => ray_transform (turn e1 e2 e z0) (f t)) n x' d' /\ axial x' d' (e * z + z0) (e * s) (e1 * hx) (e2 * hy) (e1 * ux) (e2 * uy).
Proof.
  intros RN [A B C D E F].
  exists (fun t => V3 (e1 * vx (x t)) (e2 * vy (x t)) (e * vz (x t) + z0)), (fun t => V3 (e1 * vx (d t)) (e2 * vy (d t)) (e * vz (d t))). split.
  - unfold runs in *. revert RN. apply filter_imp. intros t (P & Q & I). unfold ray_transform. cbn [r_position r_direction r_index]. rewrite P, Q. cbn [omap].
    unfold rigid_point, rigid_vector, turn, mapply, vadd, dot. cbn [rg_mat rg_shift mr1 mr2 mr3 vx vy vz]. repeat split; try assumption; f_equal; f_equal; ring.
  - constructor; cbn [vx vy vz]; try (apply small_mult_l; [apply cont_const | assumption]); ct.
Qed.
Lemma centred_near s z0 e : centred s z0 e -> exists e1 e2, sense e1 /\ sense e2 /\
  (forall f n x d z s' hx hy ux uy, runs f n x d -> axial x d z s' hx hy ux uy ->
    exists x' d', runs (fun t => apply_inverse (sf_transformation s) (f t)) n x' d' /\ axial x' d' (e * (z - z0)) (e * s') (e1 * hx) (e2 * hy) (e1 * ux) (e2 * uy)) /\
  (forall f n x d z s' hx hy ux uy, runs f n x d -> axial x d z s' hx hy ux uy ->
    exists x' d', runs (fun t => apply_transformation (sf_transformation s) (f t)) n x' d' /\ axial x' d' (e * z + z0) (e * s') (e1 * hx) (e2 * hy) (e1 * ux) (e2 * uy)).
Proof.
  intros (S & [(-> & -> & ->) | (e1 & e2 & S1 & S2 & ->)]).
  - exists 1, 1. split; [left; reflexivity|]. split; [left; reflexivity|]. split; intros f n x d z s' hx hy ux uy RN AX; exists x, d; (split; [exact RN|]);
      rewrite ?Rminus_0_r, ?Rplus_0_r, ?Rmult_1_l; exact AX.
  - exists e1, e2. split; [exact S1|]. split; [exact S2|]. split; intros f n x d z s' hx hy ux uy RN AX; cbn [apply_inverse apply_transformation]; fold (turn e1 e2 e z0).
    + rewrite turn_inverse. destruct (turn_near e1 e2 e (- (e * z0)) f n x d z s' hx hy ux uy RN AX) as (x' & d' & RN' & AX'). exists x', d'. split; [exact RN'|].
      replace (e * (z - z0)) with (e * z + - (e * z0)) by ring. exact AX'.
    + exact (turn_near e1 e2 e z0 f n x d z s' hx hy ux uy RN AX).
Qed.

Lemma sense_sign x : x <> 0 -> sense (rsign x).
Proof. intros N. destruct (Rtotal_order x 0) as [H | [H | H]]; [right; apply rsign_neg; exact H | contradiction | left; apply rsign_pos; exact H]. Qed.
Lemma sign_abs x : rsign x * Rabs x = x.
Proof.
  destruct (Rtotal_order x 0) as [H | [-> | H]]; [rewrite rsign_neg, Rabs_left by exact H; ring | rewrite Rabs_R0; ring | rewrite rsign_pos, Rabs_right by lra; ring].
Qed.
Lemma sign_opp x : x <> 0 -> rsign (- x) = - rsign x.
Proof.
  intros N. destruct (Rtotal_order x 0) as [H | [H | H]]; [rewrite (rsign_neg x H), rsign_pos by lra; ring | contradiction | rewrite (rsign_pos x H), rsign_neg by lra; ring].
Qed.

Lemma near_inside f sx sy : near_axis f sx sy <-> px_index sx <> 0 /\ px_index sy = px_index sx /\ px_z sy = px_z sx /\
  exists x d, runs f (Rabs (px_index sx)) x d /\
    axial x d (px_z sx) (rsign (px_index sx)) (px_h sx) (px_h sy) (rsign (px_index sx) * px_w sx) (rsign (px_index sx) * px_w sy).
Proof.
  unfold near_axis. split; intros (N & I & Z & x & d & H); (split; [exact N|]); (split; [exact I|]); (split; [exact Z|]); exists x, d.
  - destruct H as (L & X & D & A & B & C & E & F & G). split; [exact L|].
    constructor; (split; [try rewrite X; try rewrite D; reflexivity|]); try assumption; apply continuity_pt_filterlim; assumption.
  - destruct H as (L & [[A A'] [B B'] [C C'] [D D'] [E E'] [F F']]). split; [exact L|].
    split; [destruct (x 0); cbn in *; subst; reflexivity|]. split; [destruct (d 0); cbn in *; subst; reflexivity|].
    repeat (split; [assumption|]). split; apply continuity_pt_filterlim; assumption.
Qed.

Lemma surface_near solver s v v' f sx sy : is_vertex solver s (px_index sx) v v' -> near_axis f sx sy ->
  near_axis (fun t => surface_propagate s (f t)) (gauss_step v sx) (gauss_step v' sy).
Proof.
  intros (k & cx & cy & e & SG & RL & CE & CC & VX & VY & VZ & VI & BO) NA. apply near_inside in NA. destruct NA as (N & I & Z & x & d & RN & AX).
  set (n := px_index sx) in *. set (n' := vt_index v) in *. assert (SE : sense e) by exact (proj1 CE). assert (SS := sense_sign n N).
  assert (N' : n' <> 0) by (destruct BO as [(_ & _ & ->) | (_ & H & _)]; lra).
  destruct (centred_near s _ e CE) as (e1 & e2 & S1 & S2 & IN & OUT).
  destruct (IN _ _ _ _ _ _ _ _ _ _ RN AX) as (x1 & d1 & RN1 & AX1).
  assert (SL : sense (e * rsign n)) by (sense_cases SE; destruct SS as [-> | ->]; unfold sense; lra).
  set (m := mat_is_mirror (sf_material s)) in *.
  assert (M1 : m = true -> Rabs n = Rabs n') by (intros H; destruct BO as [(_ & _ & ->) | (X & _)]; [symmetry; apply Rabs_Ropp | fold m in X; congruence]).
  assert (M2 : forall r, r_index r = Rabs n -> mat_index (sf_material s) r = Rabs n').
  { intros r H. destruct BO as [(_ & X & ->) | (_ & _ & X & _)]; [rewrite X, Rabs_Ropp; exact H | apply X]. }
  assert (M3 : (if m then - (e * rsign n) else e * rsign n) = e * rsign n').
  { destruct BO as [(H & _ & ->) | (H & _ & _ & ->)]; fold m in H; rewrite H; [rewrite sign_opp by exact N; ring | reflexivity]. }
  destruct (local_near solver s k cx cy _ _ _ _ _ _ _ _ _ _ SG RL CC SL (Rabs_pos_lt _ N) RN1 AX1 (Rabs n') (Rabs_pos_lt _ N') M1 M2) as (x2 & d2 & RN2 & AX2).
  fold m in AX2. rewrite M3 in AX2.
  destruct (OUT _ _ _ _ _ _ _ _ _ _ RN2 AX2) as (x3 & d3 & RN3 & AX3).
  apply near_inside. unfold gauss_step. cbn [px_index px_z px_h px_w]. fold n n'. split; [exact N'|]. split; [exact VI|]. split; [exact VZ|].
  exists x3, d3. split; [exact RN3|].
  assert (Q : e * e = 1) by (sense_cases SE; ring). assert (QS : rsign n * rsign n = 1) by (destruct SS as [-> | ->]; ring).
  assert (Q' : rsign n' * rsign n' = 1) by (destruct (sense_sign n' N') as [-> | ->]; ring).
  assert (Q1 : e1 * e1 = 1) by (sense_cases S1; ring). assert (Q2 : e2 * e2 = 1) by (sense_cases S2; ring).
  assert (AN := sign_abs n). assert (AN' := sign_abs n'). assert (AP := Rabs_pos_lt _ N').
  rewrite VX, VY, VZ, VI, I, Z. fold n n'.
  assert (K : forall e' h w, e' * e' = 1 -> e' * (e' * h - e * (px_z sx - vt_z v) * (e * rsign n) * (e' * (rsign n * w))) = h + (vt_z v - px_z sx) * w).
  { intros e' h w QE. transitivity (e' * e' * (h + (e * e) * (rsign n * rsign n) * (vt_z v - px_z sx) * w)); [ring|]. rewrite QE, Q, QS. ring. }
  assert (W : forall e' h w c, e' * e' = 1 -> e' * ((Rabs n * (e' * (rsign n * w)) - (Rabs n' * (e * rsign n') - Rabs n * (e * rsign n)) *
      (c * (e' * h - e * (px_z sx - vt_z v) * (e * rsign n) * (e' * (rsign n * w))))) / Rabs n') =
      rsign n' * ((n * w - (n' - n) * (e * c) * (h + (vt_z v - px_z sx) * w)) / n')).
  { intros e' h w c QE. rewrite <- (K e' h w QE).
    set (kk := e' * h - e * (px_z sx - vt_z v) * (e * rsign n) * (e' * (rsign n * w))).
    transitivity ((e' * e' * (rsign n * Rabs n) * w - e * (rsign n' * Rabs n' - rsign n * Rabs n) * c * (e' * kk)) / Rabs n'); [field; lra|].
    rewrite QE, AN, AN'.
    assert (R1 : forall y, y / Rabs n' = rsign n' * (y / n')).
    { intros y. destruct (sense_sign n' N') as [H | H]; rewrite H in AN' |- *; [replace (Rabs n') with n' by lra | replace (Rabs n') with (- n') by lra]; field; exact N'. }
    rewrite R1. f_equal. f_equal. ring. }
  destruct AX3 as [A B C D E F].
  rewrite (K e1 _ _ Q1) in A. rewrite (K e2 _ _ Q2) in B. rewrite (W e1 _ _ _ Q1) in C. rewrite (W e2 _ _ _ Q2) in D.
  constructor; try assumption.
  - apply (cont_value _ _ _ E). ring.
  - apply (cont_value _ _ _ F). rewrite <- Rmult_assoc, Q. ring.
Qed.

Lemma system_near solver ss : forall l l' f sx sy, are_vertices solver (px_index sx) ss l l' -> near_axis f sx sy ->
  near_axis (fun t => propagate_rays surface_propagate (Sequence ss) (f t)) (gauss l sx) (gauss l' sy).
Proof.
  unfold propagate_rays, as_list, gauss. induction ss as [|s ss IH]; intros l l' f sx sy AV NA; inversion AV; subst; cbn [propagate_list fold_left].
  - exact NA.
  - apply (IH _ _ (fun t => surface_propagate s (f t)) (gauss_step v sx) (gauss_step v' sy)); [assumption|]. eapply surface_near; eassumption.
Qed.
