(** C01-C03: Snell's law, law of reflection, reversibility. *)
From Coq Require Import Reals Lra.
From Verif Require Import Vec VecLemmas Num NumLemmas SnellModel SnellSpec SnellProofs.
Open Scope R_scope.

(** C01.  The result is a unit vector whenever it exists; it exists exactly when
    n2^2 >= n1^2 |a_tangential|^2, for any incident vector [a] (unit or not). *)
Theorem C01_snell_unit : forall (a : vec3) (n1 n2 : R) (mirror : bool) (u : vec3),
  0 < n1 -> 0 < n2 -> is_unit u ->
  (n1 * n1 * norm2 (tangential u a) <= n2 * n2 ->
     exists b, snells_law a n1 n2 mirror u = Some b /\ norm2 b = 1) /\
  (n2 * n2 < n1 * n1 * norm2 (tangential u a) -> snells_law a n1 n2 mirror u = None).
Proof. exact snells_law_unit_iff. Qed.
Print Assumptions C01_snell_unit.

(** A ray at normal incidence on a plane, from index 1 to 2, and a case of total
    internal reflection. *)
Example C01_nonvacuous :
  (1 * 1 * norm2 (tangential (V3 0 0 (-1)) (V3 0 0 1)) <= 2 * 2) /\
  (1 * 1 < 2 * 2 * norm2 (tangential (V3 0 0 (-1)) (V3 1 0 0))).
Proof. unfold norm2, tangential, vsub, vscale, dot; simpl; lra. Qed.

(** C02.  Snell's law in vector form, and the side on which the ray leaves. *)
Theorem C02_snell_law : forall (a : vec3) (n1 n2 : R) (mirror : bool) (u b : vec3),
  0 < n1 -> 0 < n2 -> is_unit u -> snells_law a n1 n2 mirror u = Some b ->
  vscale n2 (tangential u b) = vscale n1 (tangential u a) /\
  (if mirror then dot a u * dot b u <= 0 else 0 <= dot a u * dot b u).
Proof. exact snells_law_full. Qed.
Print Assumptions C02_snell_law.

(** C02.  The two conditions above and unit length determine the result when
    the outgoing ray does not graze the surface: the function returns THE
    refracted (reflected) ray. *)
Theorem C02_snell_complete : forall (a : vec3) (n1 n2 : R) (mirror : bool) (u b : vec3),
  0 < n1 -> 0 < n2 -> is_unit u -> dot a u <> 0 -> is_unit b ->
  vscale n2 (tangential u b) = vscale n1 (tangential u a) ->
  (if mirror then dot a u * dot b u <= 0 else 0 <= dot a u * dot b u) ->
  snells_law a n1 n2 mirror u = Some b.
Proof. exact snells_law_complete. Qed.
Print Assumptions C02_snell_complete.

Theorem C02_reflection : forall (a : vec3) (n : R) (u : vec3),
  0 < n -> is_unit u -> is_unit a ->
  snells_law a n n true u = Some (vsub a (vscale (2 * dot a u) u)).
Proof. exact snells_law_reflect_pos. Qed.
Print Assumptions C02_reflection.

Theorem C02_normal_sign : forall (a : vec3) (n1 n2 : R) (mirror : bool) (u : vec3),
  dot a u <> 0 -> snells_law a n1 n2 mirror (vopp u) = snells_law a n1 n2 mirror u.
Proof. exact snells_law_flip_normal. Qed.
Print Assumptions C02_normal_sign.

(** C02.  Without a normal the surface is a plane across the optical axis: light that goes up is refracted upwards and
    reflected downwards. *)
Theorem C02_default : forall (a : vec3) (n1 n2 : R) (mirror : bool) (b : vec3), 0 < n1 -> 0 < n2 -> 0 < vz a ->
  snells_law a n1 n2 mirror default_normal = Some b ->
  n2 * vx b = n1 * vx a /\ n2 * vy b = n1 * vy a /\ (if mirror then vz b <= 0 else 0 <= vz b).
Proof.
  intros a n1 n2 mirror b H1 H2 A E.
  assert (U : is_unit default_normal) by (unfold is_unit, norm2, dot, default_normal; cbn; ring).
  destruct (snells_law_full a n1 n2 mirror default_normal b H1 H2 U E) as [T S].
  destruct a as [ax ay az], b as [bx by_ bz]. unfold tangential, vsub, vscale, dot, default_normal in T, S. cbn in T, S, A |- *.
  injection T as T1 T2 T3. split; [lra |]. split; [lra |].
  replace ((ax * 0 + ay * 0 + az * -1) * (bx * 0 + by_ * 0 + bz * -1)) with (az * bz) in S by ring.
  destruct mirror; nra.
Qed.
Print Assumptions C02_default.

(** A 3-4-5 ray: sin = 3/5 in vacuum goes to sin = 2/5 ... here from index 4/3
    (sin 3/5) to index 1 (sin 4/5). *)
Example C02_nonvacuous :
  snells_law (V3 (3/5) 0 (4/5)) (4/3) 1 false (V3 0 0 (-1)) = Some (V3 (4/5) 0 (3/5)).
Proof.
  apply C02_snell_complete; unfold is_unit, norm2, tangential, vsub, vscale, dot; simpl; try lra.
  apply vec_eq; simpl; lra.
Qed.

(** C03.  Reversibility of refraction. *)
Theorem C03_reversible : forall (a : vec3) (n1 n2 : R) (u b : vec3),
  0 < n1 -> 0 < n2 -> is_unit a -> is_unit u -> dot a u <> 0 ->
  n1 * n1 * norm2 (tangential u a) < n2 * n2 ->
  snells_law a n1 n2 false u = Some b ->
  snells_law (vopp b) n2 n1 false u = Some (vopp a).
Proof. exact snells_law_reversible_spec. Qed.
Print Assumptions C03_reversible.

(** C03.  Reflecting twice gives the ray back. *)
Theorem C03_reflection_involutive : forall (a : vec3) (n : R) (u b : vec3),
  0 < n -> is_unit a -> is_unit u ->
  snells_law a n n true u = Some b -> snells_law b n n true u = Some a.
Proof. exact snells_law_reflect_twice. Qed.
Print Assumptions C03_reflection_involutive.

Example C03_nonvacuous :
  (4/3) * (4/3) * norm2 (tangential (V3 0 0 (-1)) (V3 (3/5) 0 (4/5))) < 1 * 1 /\
  snells_law (V3 (3/5) 0 (4/5)) (4/3) 1 false (V3 0 0 (-1)) = Some (V3 (4/5) 0 (3/5)) /\
  snells_law (vopp (V3 (4/5) 0 (3/5))) 1 (4/3) false (V3 0 0 (-1)) = Some (vopp (V3 (3/5) 0 (4/5))).
Proof.
  assert (H : (4/3) * (4/3) * norm2 (tangential (V3 0 0 (-1)) (V3 (3/5) 0 (4/5))) < 1 * 1)
    by (unfold norm2, tangential, vsub, vscale, dot; simpl; lra).
  split; [exact H|split].
  - exact C02_nonvacuous.
  - apply (C03_reversible (V3 (3/5) 0 (4/5)) (4/3) 1); try lra; try exact H;
      try exact C02_nonvacuous; unfold is_unit, norm2, dot; simpl; lra.
Qed.
