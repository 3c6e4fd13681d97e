(** optika/sensors/materials/_ramanathan_2020/_ramanathan_2020.py: pair production in silicon
    and the Monte Carlo model of the electrons measured by a sensor. *)
From Coq Require Import Reals List Bool ZArith.
From Verif Require Import Num ExtNum MaterialModel.
Import ListNotations.
Open Scope R_scope.
Open Scope opt_scope.

(** ** Tables of pair-production probabilities *)

(** [astropy.units.spectral]: photon energy in eV of a wavelength in Angstrom. *)
Definition hc : R := 12398.419843320026.
Definition photon_energy (wavelength : R) : R := hc / wavelength.

(** Lines 27-84.  The three files share one grid of energies (in eV); [tb_rows] has, for
    each energy, the probabilities of 1, 2, ... pairs at 0 K, 100 K and 300 K.  The contents
    of the files are an argument of the model. *)
Record pair_row := mkRow { row_energy : R; row_0K : list R; row_100K : list R; row_300K : list R }.
Definition pair_table := list pair_row.

(** [n]: 1, 2, ..., lines 36 *)
Definition pair_numbers (p : list R) : list Z := map Z.of_nat (seq 1 (length p)).

(** [(_n * _probability).sum("num_electron")] and the same with [np.square(_n)] *)
Definition moment1 (p : list R) : R :=
  rsum (map (fun np => IZR (fst np) * snd np) (combine (pair_numbers p) p)).
Definition moment2 (p : list R) : R :=
  rsum (map (fun np => IZR (fst np) * IZR (fst np) * snd np) (combine (pair_numbers p) p)).

(** Lines 87-144, 220-253, 383-418; energies in eV, temperatures in K.  (The division is
    that of a temperature above -655 K.) *)
Definition energy_bandgap (T : R) : R := 1.1692 - 4.9e-4 * (T * T) / (T + 655).
Definition energy_pair_inf (T : R) : R := 1.7 * energy_bandgap T + 0.084 * 5.2 + 1.3.
Definition fano_factor_inf (T : R) : R := -0.028 * energy_bandgap T + 0.0015 * 5.2 + 0.14.

(** [numpy.interp] (which [named_arrays.interp] applies along one axis) for values that may
    be infinite or NaN, following compiled_base.c: on the segment [x0 <= x < x1] the value
    is [slope*(x-x0)+y0], if that is NaN [slope*(x-x1)+y1], and if that is NaN too and both
    ends are equal, their value.  [right] is the value beyond the last node. *)
Definition e_is_nan (a : ext) : bool := match a with NaN => true | _ => false end.
Definition e_eqb (a b : ext) : bool :=
  match a, b with
  | Fin x, Fin y => if Req_EM_T x y then true else false
  | Inf s, Inf t => eqb s t
  | _, _ => false
  end.
Definition e_segment (x x0 : R) (y0 : ext) (x1 : R) (y1 : ext) : ext :=
  let slope := ediv (esub y1 y0) (Fin (x1 - x0)) in
  let r := eadd (emul slope (Fin (x - x0))) y0 in
  if e_is_nan r then
    let r := eadd (emul slope (Fin (x - x1))) y1 in
    if e_is_nan r && e_eqb y0 y1 then y0 else r
  else r.
Fixpoint einterp_from (right : option ext) (x x0 : R) (y0 : ext) (nodes : list (R * ext)) : ext :=
  if Req_EM_T x x0 then y0 else
  match nodes with
  | [] => match right with Some r => r | None => y0 end
  | (x1, y1) :: rest =>
      if Rlt_dec x x1 then e_segment x x0 y0 x1 y1 else einterp_from right x x1 y1 rest
  end.
Definition einterp (right : option ext) (x : R) (nodes : list (R * ext)) : ext :=
  match nodes with
  | [] => NaN
  | (x0, y0) :: rest => if Rlt_dec x x0 then y0 else einterp_from right x x0 y0 rest
  end.

(** The quotient of a positive number by a number that is not negative: an infinity for zero. *)
Definition ediv_pos (x y : R) : ext := if Req_EM_T y 0 then Inf false else Fin (x / y).

(** Lines 147-217, [energy_pair]: first along the temperature, then along the energy. *)
Definition along_temperature (T : R) (y0 y100 y300 : ext) : ext :=
  einterp None T [(0, y0); (100, y100); (300, y300)].
Definition pair_cost (energy : R) (p : list R) : ext := ediv_pos energy (moment1 p).
Definition row_energy_pair (T : R) (r : pair_row) : R * ext :=
  (row_energy r,
   along_temperature T (pair_cost (row_energy r) (row_0K r)) (pair_cost (row_energy r) (row_100K r))
     (pair_cost (row_energy r) (row_300K r))).
Definition energy_pair (tb : pair_table) (wavelength T : R) : ext :=
  einterp (Some (Fin (energy_pair_inf T))) (photon_energy wavelength) (map (row_energy_pair T) tb).

(** Lines 256-306, [quantum_yield_ideal] *)
Definition to_opt (a : ext) : option R := match a with Fin x => Some x | _ => None end.
Definition quantum_yield_ideal (tb : pair_table) (wavelength T : R) : option R :=
  to_opt (ediv (Fin (photon_energy wavelength)) (energy_pair tb wavelength T)).

(** Lines 309-380, [fano_factor]: first along the energy, then along the temperature. *)
Definition table_fano (p : list R) : ext :=
  ediv (Fin (moment2 p - moment1 p * moment1 p)) (Fin (moment1 p)).
Definition fano_at (get : pair_row -> list R) (T0 energy : R) (tb : pair_table) : ext :=
  einterp (Some (Fin (fano_factor_inf T0))) energy (map (fun r => (row_energy r, table_fano (get r))) tb).
Definition fano_factor (tb : pair_table) (wavelength T : R) : option R :=
  let e := photon_energy wavelength in
  to_opt (along_temperature T (fano_at row_0K 0 e tb) (fano_at row_100K 100 e tb) (fano_at row_300K 300 e tb)).

(** Lines 421-465, [probability_of_n_pairs]: the probability of the pair count number [k]. *)
Definition probability_of_pairs (tb : pair_table) (energy T : R) (k : nat) : option R :=
  let at_T r := interp T [(0, nth k (row_0K r) 0); (100, nth k (row_100K r) 0); (300, nth k (row_300K r) 0)] in
  let fix rows tb := match tb with
                     | [] => Some []
                     | r :: rest => let* v := at_T r in let* l := rows rest in Some ((row_energy r, v) :: l)
                     end in
  let* nodes := rows tb in interp energy nodes.

(** ** Monte Carlo, lines 762-876, [_electrons_measured_numba] *)

(** The arguments of one pixel [i, x, y]. *)
Record mc_pixel := mkPixel {
  px_photons : R;
  px_energy : R;
  px_absorption : R;
  px_implant : R;
  px_depletion : R;
  px_substrate : R;
  px_width_x : R;
  px_width_y : R;
  px_eta0 : R;
  px_p : list R;
  px_n : list Z;
  px_energy_pair_inf : R;
  px_fano_inf : R }.

(** Lines 595-663, [electrons_measured]: the arguments of one pixel, from the tables.  The
    asymptotic pair energy and Fano factor are those of a photon of 1 keV. *)
Fixpoint osequence {A} (l : list (option A)) : option (list A) :=
  match l with
  | [] => Some []
  | a :: rest => let* a := a in let* r := osequence rest in Some (a :: r)
  end.
Definition num_electron (tb : pair_table) : nat := match tb with [] => O | r :: _ => length (row_0K r) end.
Definition measured_pixel (tb : pair_table) (photons wavelength absorption thickness_implant thickness_depletion
    thickness_substrate width_x width_y cce_backsurface T : R) : option mc_pixel :=
  let* p := osequence (map (probability_of_pairs tb (photon_energy wavelength) T) (seq 0 (num_electron tb))) in
  let* yield_inf := quantum_yield_ideal tb (hc / 1000) T in
  let* energy_pair_inf := odiv 1000 yield_inf in
  let* fano_inf := fano_factor tb (hc / 1000) T in
  Some (mkPixel photons (photon_energy wavelength) absorption thickness_implant thickness_depletion
          thickness_substrate width_x width_y cce_backsurface p (pair_numbers p) energy_pair_inf fano_inf).

(** The draws made for one photon.  The generators are external; a distribution with
    parameters is a function of them, [dr_gauss_x e] being the draw for electron [e]. *)
Record photon_draws := mkDraws {
  dr_pair : R;                          (* line 822, random.uniform(0, 1) *)
  dr_normal : R -> R -> R;              (* line 831 *)
  dr_depth : R;                         (* line 837 *)
  dr_binomial : Z -> R -> Z;            (* line 850 *)
  dr_u : R;                             (* line 852 *)
  dr_v : R;
  dr_gauss_x : nat -> R -> R -> R;      (* line 859 *)
  dr_gauss_y : nat -> R -> R -> R }.

(** round(): to the nearest integer, ties to even *)
Definition round_even (x : R) : Z :=
  let f := Int_part x in
  let d := x - IZR f in
  if Rlt_dec d (1 / 2) then f
  else if Rlt_dec (1 / 2) d then (f + 1)%Z
  else if Z.even f then f else (f + 1)%Z.

(** int(): towards zero *)
Definition int_of (x : R) : Z := if Rle_dec 0 x then Int_part x else (- Int_part (- x))%Z.

(** [np.cumsum] *)
Fixpoint cumsum (acc : R) (p : list R) : list R :=
  match p with [] => [] | q :: rest => (acc + q) :: cumsum (acc + q) rest end.

(** Lines 824-828: the first entry of [cmf] above the draw; when there is none the loop
    variable keeps its last value.  An empty table leaves it undefined. *)
Fixpoint select_pairs (x : R) (cmf : list R) (n : list Z) : option Z :=
  match cmf, n with
  | [c], m :: _ => Some m
  | c :: cs, m :: ms => if Rlt_dec x c then Some m else select_pairs x cs ms
  | _, _ => None
  end.

(** Lines 814-835 *)
Definition pair_count (px : mc_pixel) (d : photon_draws) : option Z :=
  let* mean_inf := odiv (px_energy px) (px_energy_pair_inf px) in
  let* std_inf := osqrt (px_fano_inf px * mean_inf) in
  if Rle_dec (px_energy px) 50 then select_pairs (dr_pair d) (cumsum 0 (px_p px)) (px_n px)
  else Some (round_even (dr_normal d mean_inf std_inf)).

(** Lines 804-812, 837-843: the depth of a photon for the draw [y].  (The logarithm is that
    of a positive number for [y < 1].) *)
Definition photon_depth (a z_substrate y : R) : R :=
  let d := if Rlt_dec 0 a then 1 / a else 0 in
  let fraction_absorbed := 1 - exp (- a * z_substrate) in
  if Rlt_dec 0 a then - d * ln (1 - y * fraction_absorbed) else y * z_substrate.

(** Lines 845-848 *)
Definition collection_probability (h0 W z : R) : R :=
  if Rlt_dec z W then h0 + (1 - h0) * z / W else 1.

(** Line 850.  numpy raises an error for a negative number of trials and for a probability
    outside of the interval from 0 to 1. *)
Definition surviving (px : mc_pixel) (d : photon_draws) : option Z :=
  let* n := pair_count px d in
  let z := photon_depth (px_absorption px) (px_substrate px) (dr_depth d) in
  let h := collection_probability (px_eta0 px) (px_implant px) z in
  if (n <? 0)%Z then None
  else if Rle_dec 0 h then if Rle_dec h 1 then Some (dr_binomial d n h) else None
  else None.

(** Lines 856-866: the displacement, in pixels, of electron [e].  (The square root and the
    quotients are those of positive numbers.) *)
Definition displacement (px : mc_pixel) (d : photon_draws) (e : nat) : Z * Z :=
  let z := photon_depth (px_absorption px) (px_substrate px) (dr_depth d) in
  let z_ff := px_substrate px - px_depletion px in
  if Rlt_dec z z_ff then
    if Rlt_dec 0 (px_width_x px) then
      if Rlt_dec 0 (px_width_y px) then
        let w := z_ff * sqrt (1 - z / z_ff) in
        (round_even (dr_gauss_x d e (dr_u d) (w / px_width_x px)),
         round_even (dr_gauss_y d e (dr_v d) (w / px_width_y px)))
      else (0, 0)%Z
    else (0, 0)%Z
  else (0, 0)%Z.

(** Lines 868-876: the element incremented for an electron, if any.  Python's [%] of a
    positive modulus is [Z.modulo]. *)
Definition landing (wrap : bool) (num_x num_y x_e y_e : Z) : option (Z * Z) :=
  if wrap then Some (x_e mod num_x, y_e mod num_y)%Z
  else if ((0 <=? x_e) && (x_e <? num_x) && ((0 <=? y_e) && (y_e <? num_y)))%Z then Some (x_e, y_e)
  else None.

Definition keep {A} (l : list (option A)) : list A :=
  flat_map (fun o => match o with Some a => [a] | None => [] end) l.

(** The elements incremented for one photon, in order. *)
Definition photon_writes (wrap : bool) (num_x num_y x y : Z) (px : mc_pixel) (d : photon_draws)
    : option (list (Z * Z)) :=
  let* m := surviving px d in
  Some (keep (map (fun e => let '(p, q) := displacement px d e in
                            landing wrap num_x num_y (x + p) (y + q))
                  (seq 0 (Z.to_nat m)))).

(** Loops, collecting the increments in order; an error ends the run. *)
Fixpoint oconcat {A B} (f : A -> option (list B)) (l : list A) : option (list B) :=
  match l with
  | [] => Some []
  | a :: rest => let* u := f a in let* v := oconcat f rest in Some (u ++ v)
  end.
Definition zrange (n : Z) : list Z := map Z.of_nat (seq 0 (Z.to_nat n)).

(** A slice [i]: the arguments of its pixels and the draws of every photon. *)
Record mc_slice := mkSlice {
  sl_pixel : Z -> Z -> mc_pixel;
  sl_draws : Z -> Z -> nat -> photon_draws }.

(** Lines 788-789 and 819: the increments [result[i, ., .] += 1] of one iteration of the
    parallel loop, in program order.  No statement of the loop reads [result] otherwise. *)
Definition slice_writes (wrap : bool) (num_x num_y : Z) (s : mc_slice) : option (list (Z * Z)) :=
  oconcat (fun x => oconcat (fun y =>
    oconcat (fun j => photon_writes wrap num_x num_y x y (sl_pixel s x y) (sl_draws s x y j))
            (seq 0 (Z.to_nat (int_of (px_photons (sl_pixel s x y))))))
    (zrange num_y)) (zrange num_x).

(** The array: a count for every element (exact integers below 2^53 in numpy). *)
Definition zeros : Z -> Z -> Z := fun _ _ => 0%Z.
Definition increment (g : Z -> Z -> Z) (w : Z * Z) : Z -> Z -> Z :=
  fun x y => if ((x =? fst w) && (y =? snd w))%Z then (g x y + 1)%Z else g x y.
Definition run_slice (wrap : bool) (num_x num_y : Z) (s : mc_slice) : option (Z -> Z -> Z) :=
  let* w := slice_writes wrap num_x num_y s in Some (fold_left increment w zeros).

(** Lines 626-634 and 687-688, [electrons_measured] with [axis_xy = None]: a grid of one pixel. *)
Definition measured_single (wrap : bool) (px : mc_pixel) (draws : nat -> photon_draws) : option Z :=
  let* g := run_slice wrap 1 1 (mkSlice (fun _ _ => px) (fun _ _ j => draws j)) in Some (g 0 0)%Z.

(** Lines 785-787, 876: all slices, one after the other. *)
Fixpoint run_slices (wrap : bool) (num_x num_y : Z) (ss : list mc_slice) : option (list (Z -> Z -> Z)) :=
  match ss with
  | [] => Some []
  | s :: rest => let* g := run_slice wrap num_x num_y s in
                 let* gs := run_slices wrap num_x num_y rest in Some (g :: gs)
  end.
