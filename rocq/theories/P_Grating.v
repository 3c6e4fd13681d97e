(** C113: gratings and the lengths of paths. *)
From Coq Require Import Reals List.
From Coquelicot Require Import Coquelicot.
From Verif Require Import Vec Num RayModel SnellSpec SurfaceModel SagModel SagSpec RulingModel SequenceSpec FocusSpec FocusExamples
  FermatSpec GratingSpec GratingProofs GratingExamples.
Import ListNotations.
Open Scope R_scope.

(** C113.  A system of surfaces of all shapes, with and without rulings.  If to the optical length
    of a path are added, for each grating on it, the number of the groove it meets times the order
    times the wavelength, then this sum does not change to first order if the points where the
    traced ray meets the surfaces are moved along any curves within the surfaces. *)
Theorem C113_fermat : forall solver l r d cs e ws,
  List.Forall (ruled_shaped solver) l -> r_direction r = Some d -> is_unit d ->
  let ss := map ru_surface l in
  let rays := accumulate_rays surface_propagate (Sequence ss) r in
  forward r rays e -> varied (combine (map ru_class l) ss) rays cs ->
  groove_lengths l r rays ws -> not_grazing l r rays ->
  exists x, r_position r = Some x /\
    is_derive (fun t => optical_length (r_index r) x (combine (map r_index rays) (map (fun c => c t) cs)) e
                        + groove_sum l ws (map (fun c => c t) cs)) 0 0.
Proof. exact grating_fermat. Qed.
Print Assumptions C113_fermat.

(** C113.  If the ends move too, only they count. *)
Theorem C113_variation : forall solver l r x d c0 v0 cs e ce ve b ws,
  List.Forall (ruled_shaped solver) l ->
  r_position r = Some x -> r_direction r = Some d -> is_unit d ->
  let ss := map ru_surface l in
  let rays := accumulate_rays surface_propagate (Sequence ss) r in
  forward r rays e -> varied (combine (map ru_class l) ss) rays cs ->
  groove_lengths l r rays ws -> not_grazing l r rays ->
  moves c0 x v0 -> moves ce e ve ->
  r_direction (propagate_rays surface_propagate (Sequence ss) r) = Some b ->
  is_derive (fun t => optical_length (r_index r) (c0 t) (combine (map r_index rays) (map (fun c => c t) cs)) (ce t)
                      + groove_sum l ws (map (fun c => c t) cs)) 0
    (r_index (propagate_rays surface_propagate (Sequence ss) r) * dot b ve - r_index r * dot d v0).
Proof. exact grating_variation. Qed.
Print Assumptions C113_variation.

(** C113.  So behind the gratings, too, the rays are at right angles to the wavefronts. *)
Theorem C113_malus : forall solver l r x d c0 v0 cs e ce ve b ws L,
  List.Forall (ruled_shaped solver) l ->
  r_position r = Some x -> r_direction r = Some d -> is_unit d ->
  let ss := map ru_surface l in
  let rays := accumulate_rays surface_propagate (Sequence ss) r in
  forward r rays e -> varied (combine (map ru_class l) ss) rays cs ->
  groove_lengths l r rays ws -> not_grazing l r rays ->
  moves c0 x v0 -> moves ce e ve ->
  r_direction (propagate_rays surface_propagate (Sequence ss) r) = Some b ->
  r_index (propagate_rays surface_propagate (Sequence ss) r) <> 0 -> dot d v0 = 0 ->
  locally 0 (fun t => optical_length (r_index r) (c0 t) (combine (map r_index rays) (map (fun c => c t) cs)) (ce t)
                      + groove_sum l ws (map (fun c => c t) cs) = L) ->
  dot b ve = 0.
Proof. exact grating_malus. Qed.
Print Assumptions C113_malus.

(** C113.  The grooves of a constant spacing, on a surface of any shape, are where it meets planes
    at that distance. *)
Theorem C113_constant : forall k c g, c <> 0 -> is_unit g -> numbers k (constant_spacing c g) (fun p => dot p g / c).
Proof. exact constant_numbers. Qed.
Print Assumptions C113_constant.

(** C113.  The grooves of holographic rulings are the fringes of the two recording beams: where the
    difference of their lengths is a whole number of wavelengths. *)
Theorem C113_holographic : forall k x1 x2 w d1 d2 t, w <> 0 ->
  numbers k (holographic_spacing x1 x2 w d1 d2 t) (fun p => (beam_length d1 x1 p - beam_length d2 x2 p) / w).
Proof. exact holographic_numbers. Qed.
Print Assumptions C113_holographic.

(** C113.  The grooves of a polynomial spacing are numbered by the integral of one over the
    polynomial.  Missing: transformations that turn the direction across the rulings. *)
Theorem C113_polynomial_partial : forall k l g t P, is_unit g ->
  match t with None => True | Some t => is_rigid t /\ rigid_vector t g = g end ->
  (forall x, polynomial l x <> 0 -> is_derive P x (1 / polynomial l x)) ->
  numbers k (polynomial_spacing l g t) (fun p => P (dot (match t with None => p | Some t => rigid_point t p end) g)).
Proof. exact polynomial_numbers. Qed.
Print Assumptions C113_polynomial_partial.

(** C113.  With those the spacing is that of no pattern of grooves at all, even on a plane: the
    position is turned and the vector across the grooves is not. *)
Theorem C113_polynomial_refuted : exists l g t, is_unit g /\ is_rigid t /\ (forall x, 0 <= x -> 0 < polynomial l x) /\
  forall N, ~ numbers NoSag (polynomial_spacing l g (Some t)) N.
Proof. exact turned_refuted. Qed.
Print Assumptions C113_polynomial_refuted.

(** A grating on a paraboloid followed by a flat mirror. *)
Example C113_nonvacuous : let rays := accumulate_rays surface_propagate (Sequence (map ru_surface spectrograph)) incidence in
  List.Forall (ruled_shaped no_solver) spectrograph /\ is_unit (V3 0 0 1) /\ forward incidence rays (V3 (-6) 0 0) /\
  varied (combine (map ru_class spectrograph) (map ru_surface spectrograph)) rays [bend; drift] /\
  groove_lengths spectrograph incidence rays [-1; 0] /\ not_grazing spectrograph incidence rays /\
  r_direction (propagate_rays surface_propagate (Sequence (map ru_surface spectrograph)) incidence) = Some (V3 (-3/5) 0 (4/5)).
Proof. exact ex_grating. Qed.

(** A plane wave on a flat grating. *)
Example C113_malus_nonvacuous : let l := [mkRuled NoSag flat_lines (fun p => dot p (V3 1 0 0) / (5/3))] in
  let rays := accumulate_rays surface_propagate (Sequence (map ru_surface l)) incidence in
  List.Forall (ruled_shaped no_solver) l /\ is_unit (V3 0 0 1) /\ forward incidence rays (V3 (-3) 0 (-4)) /\
  varied (combine (map ru_class l) (map ru_surface l)) rays [wave_foot] /\
  groove_lengths l incidence rays [-1] /\ not_grazing l incidence rays /\
  moves wave_start (V3 0 0 (-3)) (V3 1 0 0) /\ moves wave_end (V3 (-3) 0 (-4)) (V3 (16/25) 0 (-12/25)) /\
  r_direction (propagate_rays surface_propagate (Sequence (map ru_surface l)) incidence) = Some (V3 (-3/5) 0 (-4/5)) /\
  r_index (propagate_rays surface_propagate (Sequence (map ru_surface l)) incidence) <> 0 /\ dot (V3 0 0 1) (V3 1 0 0) = 0 /\
  locally 0 (fun t => optical_length (r_index incidence) (wave_start t) (combine (map r_index rays) (map (fun c => c t) [wave_foot])) (wave_end t)
                      + groove_sum l [-1] (map (fun c => c t) [wave_foot]) = 8).
Proof. exact ex_wave. Qed.

(** A polynomial spacing and its integral; a holographic spacing that is not zero. *)
Example C113_polynomial_nonvacuous : forall x, polynomial [(0%nat, 2); (1%nat, 1)] x <> 0 ->
  is_derive (fun x => ln (Rabs (2 + x))) x (1 / polynomial [(0%nat, 2); (1%nat, 1)] x).
Proof. exact ex_polynomial. Qed.
Example C113_holographic_nonvacuous : exists kappa, class_normal NoSag (V3 0 0 0) = Some (V3 0 0 (-1)) /\
  holographic_spacing (V3 0 0 (-1)) (V3 3 0 (-4)) 1 true false None (V3 0 0 0) (V3 0 0 (-1)) = Some kappa /\ vlen kappa <> 0.
Proof. exact ex_holographic. Qed.
