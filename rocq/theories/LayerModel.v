(** optika/materials: Snell's law for cosines, transfer matrices, layers and multilayers,
    for one wavelength, one direction and one polarization. *)
From Coq Require Import Reals List Bool ZArith.
From Coquelicot Require Import Coquelicot.
From Verif Require Import Vec Num ComplexModel ProfileModel SnellModel.
Import ListNotations.
Open Scope C_scope.
Open Scope opt_scope.

(** _snells_law.py:13-38, [snells_law_scalar] *)
Definition snells_law_scalar (cos_incidence n n_new : C) : option C :=
  let sin_incidence := csqrt (1 - cos_incidence * cos_incidence) in
  let* sin_transmitted := cdiv (n * sin_incidence) n_new in
  Some (csqrt (1 - sin_transmitted * sin_transmitted)).

(** ** matrices.py *)
(** matrices.py:127-141: the product of cosine and impedance; [s] is [polarized_s]. *)
Definition impedance (s : bool) (n : C) : option C := if s then Some n else cdiv 1 n.
Definition polarized (s : bool) (direction : C) : C := if s then direction else Cconj direction.
Definition q_factor (s : bool) (direction n : C) : option C :=
  let* i := impedance s n in Some (polarized s direction * i).

(** matrices.py:20-161, [refraction] *)
Definition refraction (wavelength : R) (direction_left direction_right : C) (s : bool)
    (n_left n_right : C) (interface : option interface_profile) : option mat2 :=
  let* q_i := q_factor s direction_left n_left in
  let* q_j := q_factor s direction_right n_right in
  let a_ij := q_i + q_j in
  let* r_ij := cdiv (q_i - q_j) a_ij in
  let* t_ij := cdiv (2 * q_i) a_ij in
  let* w := match interface with
            | None => Some 1%R
            | Some p => profile_reflectivity p wavelength (polarized s direction_left) n_left
            end in
  let r_ij := r_ij * RtoC w in
  let* u := cdiv 1 t_ij in
  let* v := cdiv r_ij t_ij in
  Some (Mat2 u v v u).

(** matrices.py:164-246, [propagation] *)
Definition propagation (wavelength : R) (direction : C) (thickness : R) (n : C) : option mat2 :=
  let* beta := cdiv (RtoC (2 * PI) * RtoC thickness * n * direction) (RtoC wavelength) in
  Some (Mat2 (cexp (- Ci * beta)) 0 0 (cexp (Ci * beta))).

(** matrices.py:249-356, [transfer] of one slab in vacuum.  The direction in the slab is the one that
    the vector form of Snell's law gives for the real part of the index. *)
Definition slab_transfer (wavelength : R) (direction : vec3) (s : bool) (thickness : R) (n : C) (normal : vec3) : option mat2 :=
  let* direction_internal := snells_law direction 1 (Re n) false normal in
  let direction := RtoC (dot (vopp direction) normal) in
  let direction_internal := RtoC (dot (vopp direction_internal) normal) in
  omul (omul (refraction wavelength direction direction_internal s 1 n None)
             (propagation wavelength direction_internal thickness n))
       (refraction wavelength direction_internal direction s n 1 None).

(** ** _layers.py *)
(** _layers.py:135-223, [Layer]; a chemical is the function from wavelength to index. *)
Record layer := Layer {
  ly_chemical : option (R -> C);
  ly_thickness : R;
  ly_interface : option interface_profile }.
Definition layer_n (l : layer) (wavelength : R) : C :=
  match ly_chemical l with None => 1 | Some f => f wavelength end.

(** What [transfer] passes from one layer to the next: [n], [direction], [where]. *)
Record lstate := LState { st_n : C; st_direction : option C; st_where : bool }.

(** _layers.py:271; a comparison with NaN is false. *)
Definition where_propagation (p : option mat2) : bool :=
  match p with
  | None => false
  | Some p => if Rlt_dec (Cmod (mxx p)) (10 ^ 10) then true else false
  end.

(** _layers.py:229-277, [Layer.transfer] *)
Definition layer_transfer (wavelength : R) (s : bool) (l : layer) (st : lstate) : lstate * option mat2 :=
  let n_internal := layer_n l wavelength in
  let direction_internal :=
    let* d := st_direction st in snells_law_scalar d (st_n st) n_internal in
  let refr :=
    if st_where st then
      let* d := st_direction st in
      let* d' := direction_internal in
      refraction wavelength d d' s (st_n st) n_internal (ly_interface l)
    else Some mat_id in
  let prop :=
    let* d' := direction_internal in propagation wavelength d' (ly_thickness l) n_internal in
  let where' := st_where st && where_propagation prop in
  let transfer := if where' then omul refr prop else refr in
  (LState n_internal direction_internal where', transfer).

(** [Layer], [LayerSequence] (_layers.py:380-523) and [PeriodicLayerSequence]
    (_layers.py:526-678). *)
Inductive alayer :=
| ALayer (l : layer)
| ASequence (layers : list alayer)
| APeriodic (layers : list alayer) (num_periods : Z).

(** The [transfer] methods: _layers.py:229-277, 473-499, 611-645. *)
Fixpoint transfer (wavelength : R) (s : bool) (l : alayer) (st : lstate) {struct l} : lstate * option mat2 :=
  let sequence :=
    fix sequence (ls : list alayer) (st : lstate) (result : option mat2) :=
      match ls with
      | [] => (st, result)
      | l :: ls =>
          let x := transfer wavelength s l st in
          sequence ls (fst x) (omul result (snd x))
      end in
  match l with
  | ALayer l => layer_transfer wavelength s l st
  | ASequence ls => sequence ls st (Some mat_id)
  | APeriodic ls num_periods =>
      let start := sequence ls st (Some mat_id) in
      let periodic := sequence ls (fst start) (Some mat_id) in
      let power := let* p := snd periodic in mat_power p (num_periods - 1) in
      (fst periodic, omul (snd start) power)
  end.

(** [thickness]: _layers.py:448-453, 595-597 *)
Fixpoint thickness (l : alayer) : R :=
  let sum := fix sum (ls : list alayer) :=
    match ls with [] => 0%R | l :: ls => (thickness l + sum ls)%R end in
  match l with
  | ALayer l => ly_thickness l
  | ASequence ls => sum ls
  | APeriodic ls num_periods => (IZR num_periods * sum ls)%R
  end.

(** Python's [list * int] *)
Definition list_times {A} (l : list A) (n : Z) : list A := concat (repeat l (Z.to_nat n)).

(** [layer_sequence]: _layers.py:225-227, 469-471, 607-609; the list of its [layers]. *)
Definition layer_sequence (l : alayer) : list alayer :=
  match l with
  | ALayer l => [ALayer l]
  | ASequence ls => ls
  | APeriodic ls num_periods => list_times ls num_periods
  end.

(** The first layer, from which [n] and [interface] are taken (_layers.py:442-461, 589-605);
    an empty sequence is an IndexError. *)
Fixpoint first_layer (l : alayer) : option layer :=
  let first ls := match ls with [] => None | l :: _ => first_layer l end in
  match l with
  | ALayer l => Some l
  | ASequence ls => first ls
  | APeriodic ls _ => first ls
  end.

(** ** _multilayers.py *)
(** _multilayers.py:190-193: the substrate without its thickness, vacuum by default. *)
Definition substrate_layer (substrate : option layer) : layer :=
  match substrate with
  | None => Layer None 0 None
  | Some l => Layer (ly_chemical l) 0 (ly_interface l)
  end.

(** _multilayers.py:33-237, [multilayer_coefficients], for one polarization.  The argument
    [layers] is an [AbstractLayer]; a list stands for its [LayerSequence]. *)
Definition multilayer_matrix (wavelength : R) (direction n : C) (layers : alayer) (substrate : option layer)
    (s : bool) : lstate * option mat2 :=
  let x := transfer wavelength s layers (LState n (Some direction) true) in
  let y := layer_transfer wavelength s (substrate_layer substrate) (fst x) in
  (fst y, omul (snd x) (snd y)).
Definition multilayer_coefficients (wavelength : R) (direction n : C) (layers : alayer)
    (substrate : option layer) (s : bool) : option C * option C :=
  let x := multilayer_matrix wavelength direction n layers substrate s in
  let r := let* m := snd x in cdiv (myx m) (mxx m) in
  let t := let* m := snd x in cdiv 1 (mxx m) in
  (r, if st_where (fst x) then t else Some (RtoC 0)).

(** _multilayers.py:240-532, [multilayer_efficiency], for one polarization. *)
Definition multilayer_efficiency (wavelength : R) (direction n : C) (layers : alayer)
    (substrate : option layer) (s : bool) : option R * option R :=
  let substrate := substrate_layer substrate in
  let x := multilayer_coefficients wavelength direction n layers (Some substrate) s in
  let n_substrate := layer_n substrate wavelength in
  let reflectivity := omap (fun r => Cmod r ^ 2)%R (fst x) in
  let transmissivity :=
    let* t := snd x in
    let* direction_substrate := snells_law_scalar direction n n_substrate in
    let* q_ambient := q_factor s direction n in
    let* q_substrate := q_factor s direction_substrate n_substrate in
    let* q := cdiv q_substrate q_ambient in
    Some (Cmod t ^ 2 * Re q)%R in
  (reflectivity, transmissivity).

(** [PolarizationVectorArray.average] *)
Definition average (s p : option R) : option R :=
  let* s := s in let* p := p in Some ((s + p) / 2)%R.

(** _multilayers.py:855-866 and 924-935: the cosine and the complex index of the ambient
    medium are those of the ray. *)
Definition ambient_n (wavelength attenuation index : R) : C :=
  (index, (attenuation * wavelength / (4 * PI))%R).
Definition ambient_direction (direction normal : vec3) : C := RtoC (dot (vopp direction) normal).
Definition film_efficiency (layers : alayer) (wavelength attenuation index : R) (direction normal : vec3) : option R :=
  let e := multilayer_efficiency wavelength (ambient_direction direction normal)
             (ambient_n wavelength attenuation index) layers None in
  average (snd (e true)) (snd (e false)).
Definition mirror_efficiency (layers : alayer) (substrate : option layer)
    (wavelength attenuation index : R) (direction normal : vec3) : option R :=
  let e := multilayer_efficiency wavelength (ambient_direction direction normal)
             (ambient_n wavelength attenuation index) layers substrate in
  average (fst (e true)) (fst (e false)).
(** _thin_films.py:31-55 *)
Definition filter_efficiency (l oxide : layer) (mesh : R)
    (wavelength attenuation index : R) (direction normal : vec3) : option R :=
  omap (fun t => t * mesh)%R
    (film_efficiency (ASequence [ALayer oxide; ALayer l; ALayer oxide])
       wavelength attenuation index direction normal).

(** ** [layer_absorbance]: _multilayers.py:535-768 *)
(** Python's [l[i]] and [l[:k]] *)
Definition py_index {A} (l : list A) (i : Z) : option A :=
  let n := Z.of_nat (length l) in
  let j := if (i <? 0)%Z then (i + n)%Z else i in
  if ((0 <=? j) && (j <? n))%Z then nth_error l (Z.to_nat j) else None.
Definition py_slice_to {A} (l : list A) (k : Z) : list A :=
  let n := Z.of_nat (length l) in
  let j := if (k <? 0)%Z then Z.max 0 (k + n)%Z else Z.min k n in
  firstn (Z.to_nat j) l.

(** Three-dimensional complex vectors. *)
Record cvec3 := CV { cvx : C; cvy : C; cvz : C }.
Definition cvadd (a b : cvec3) := CV (cvx a + cvx b) (cvy a + cvy b) (cvz a + cvz b).
Definition cvscale (c : C) (a : cvec3) := CV (c * cvx a) (c * cvy a) (c * cvz a).
Definition cvconj (a : cvec3) := CV (Cconj (cvx a)) (Cconj (cvy a)) (Cconj (cvz a)).
Definition cvcross (a b : cvec3) :=
  CV (cvy a * cvz b - cvz a * cvy b) (cvz a * cvx b - cvx a * cvz b) (cvx a * cvy b - cvy a * cvx b).

(** [Cartesian3dYRotationMatrixArray(angle) @ v], with the cosine and the sine of the angle. *)
Definition y_rotation (c s : C) (v : cvec3) : cvec3 :=
  CV (c * cvx v + s * cvz v) (cvy v) (- s * cvx v + c * cvz v).

(** _multilayers.py:689-756: the flux for the amplitudes [a], [b] of the two waves.  The
    sine of [arccos(direction)] is the principal square root of [1 - direction**2]. *)
Definition flux (s : bool) (n direction a b : C) : option R :=
  let sine := csqrt (1 - direction * direction) in
  let rotation := y_rotation direction sine in
  let antirotation := y_rotation direction (- sine) in
  let a := cvscale a (if s then CV 0 1 0 else rotation (CV 1 0 0)) in
  let b := cvscale b (if s then CV 0 1 0 else antirotation (CV 1 0 0)) in
  let* i := impedance s n in
  let ka := cvscale i (rotation (CV 0 0 1)) in
  let kb := cvscale i (antirotation (CV 0 0 (-(1)))) in
  let c := cvcross ka a in
  let d := cvcross kb b in
  Some (Re (cvz (cvcross (cvadd a b) (cvconj (cvadd c d))))).

(** _multilayers.py:535-768 for one polarization.  The quotient of line 758 is complex when
    the ambient medium absorbs. *)
Definition layer_absorbance (index : Z) (wavelength : R) (direction n : C) (layers : alayer)
    (substrate : option layer) (s : bool) : option C :=
  let layers := layer_sequence layers in
  let ambient := LState n (Some direction) true in
  let* r := fst (multilayer_coefficients wavelength direction n (ASequence layers) substrate s) in
  let* l := py_index layers index in
  let i := transfer wavelength s (ASequence (py_slice_to layers index)) ambient in
  let* l0 := first_layer l in
  let n_left := layer_n l0 wavelength in
  let* direction_left := snells_law_scalar direction n n_left in
  let* direction_i := st_direction (fst i) in
  let* m_left := omul (snd i)
    (refraction wavelength direction_i direction_left s (st_n (fst i)) n_left (ly_interface l0)) in
  let right := transfer wavelength s (ASequence (py_slice_to layers (index + 1))) ambient in
  let* m_right := snd right in
  let* m_right := mat_inverse m_right in
  let* m_left := mat_inverse m_left in
  let a_right := if st_where (fst right) then mat_apply m_right (RtoC 1, r) else (RtoC 0, RtoC 0) in
  let a_left := mat_apply m_left (RtoC 1, r) in
  let* direction_right := st_direction (fst right) in
  let* flux_right := flux s (st_n (fst right)) direction_right (fst a_right) (snd a_right) in
  let* flux_left := flux s n_left direction_left (fst a_left) (snd a_left) in
  let* impedance_ambient := impedance s n in
  cdiv (RtoC (flux_left - flux_right)) (impedance_ambient * direction).
