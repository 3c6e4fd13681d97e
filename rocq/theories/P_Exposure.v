(** C118: every pixel of an exposure is simulated with its own parameters. *)
From Coq Require Import Reals List String Arith ZArith.
From Verif Require Import Num ShapeModel RamanathanModel ExposureModel ExposureSpec ExposureProofs ExposureExamples.
Import ListNotations.
Open Scope string_scope.
Open Scope list_scope.
Open Scope nat_scope.

(** C118.  Whatever axes the arguments have and in whatever order, the electrons counted at a place are those that land there in
    a simulation of the grid of pixels through that place, in which every pixel has the parameters that the arguments have at
    its place; places that differ in another axis are simulated with draws of their own. *)
Theorem C118_grid : forall garbage junk wrap draws ax ay s num_n e result, NoDup (map fst s) -> ax <> ay -> ~ In "num_electron" (map fst s) ->
  measured_array garbage junk wrap draws (Some (ax, ay)) s num_n e = Some result ->
  (forall a, lookup a (na_shape result) = lookup a s) /\ List.length (na_data result) = elements (na_shape result) /\
  exists nx ny slice, lookup ax s = Some nx /\ lookup ay s = Some ny /\
    (forall p q, inside s p -> inside s q -> slice p = slice q <-> forall a, In a (map fst s) -> a <> ax -> a <> ay -> p a = q a) /\
    forall p, inside s p -> exists pixels g,
      (forall x y, x < nx -> y < ny -> own_pixel e num_n (move ay y (move ax x p)) (pixels (Z.of_nat x) (Z.of_nat y))) /\
      run_slice wrap (Z.of_nat nx) (Z.of_nat ny) (mkSlice pixels (draws (slice p))) = Some g /\
      element result p = Some (g (Z.of_nat (p ax)) (Z.of_nat (p ay))).
Proof. exact pixels_own. Qed.
Print Assumptions C118_grid.

(** C118.  Without a grid every place is a sensor of one pixel, with the parameters of the arguments there (which have no axes with the
    two names that the code adds) and draws of its own. *)
Theorem C118_single : forall garbage junk wrap draws s num_n e result, NoDup (map fst s) -> ~ In "num_electron" (map fst s) ->
  ~ In "__dummy_x__" (map fst s) -> ~ In "__dummy_y__" (map fst s) ->
  measured_array garbage junk wrap draws None s num_n e = Some result ->
  na_shape result = s /\ List.length (na_data result) = elements s /\
  exists slice, (forall p q, inside s p -> inside s q -> slice p = slice q <-> forall a, In a (map fst s) -> p a = q a) /\
    forall p, inside s p -> exists px c, own_pixel e num_n (move "__dummy_y__" 0 (move "__dummy_x__" 0 p)) px /\
      measured_single wrap px (draws (slice p) 0%Z 0%Z) = Some c /\ element result p = Some c.
Proof. exact single_own. Qed.
Print Assumptions C118_single.

(** C118.  Arguments whose axes have the size of the whole or the size one, which is stretched, are accepted: there are counts unless
    the simulation of a grid of pixels through some place fails, with the parameters that the arguments have there. *)
Theorem C118_accepted : forall garbage junk wrap draws ax ay s nx ny num_n e, NoDup (map fst s) -> ax <> ay -> ~ In "num_electron" (map fst s) ->
  lookup ax s = Some nx -> lookup ay s = Some ny -> 0 < nx -> 0 < ny -> 0 < num_n -> arguments_fit s num_n e ->
  (exists result, measured_array garbage junk wrap draws (Some (ax, ay)) s num_n e = Some result) \/
  exists p i pixels, inside s p /\
    (forall x y, x < nx -> y < ny -> own_pixel e num_n (move ay y (move ax x p)) (pixels (Z.of_nat x) (Z.of_nat y))) /\
    run_slice wrap (Z.of_nat nx) (Z.of_nat ny) (mkSlice pixels (draws i)) = None.
Proof. exact grid_accepted. Qed.
Print Assumptions C118_accepted.

(** C118.  The same without a grid. *)
Theorem C118_single_accepted : forall garbage junk wrap draws s num_n e, NoDup (map fst s) -> ~ In "num_electron" (map fst s) ->
  ~ In "__dummy_x__" (map fst s) -> ~ In "__dummy_y__" (map fst s) -> 0 < num_n -> arguments_fit s num_n e ->
  (exists result, measured_array garbage junk wrap draws None s num_n e = Some result) \/
  exists p i px, inside s p /\ own_pixel e num_n (move "__dummy_y__" 0 (move "__dummy_x__" 0 p)) px /\ measured_single wrap px (draws i 0%Z 0%Z) = None.
Proof. exact single_accepted. Qed.
Print Assumptions C118_single_accepted.

Example C118_nonvacuous : NoDup (map fst grid) /\ "x" <> "y" /\ ~ In "num_electron" (map fst grid) /\
  ~ In "__dummy_x__" (map fst grid) /\ ~ In "__dummy_y__" (map fst grid) /\
  (forall g j, measured_array g j false same_draws (Some ("x", "y")) grid 1 frame = Some (mkNarray [("w", 2); ("x", 2); ("y", 1)] [1; 1; 0; 0]%Z)) /\
  (forall g j, measured_array g j true same_draws None grid 1 frame = Some (mkNarray grid [3; 0; 0; 0]%Z)) /\
  inside grid (fun a => if String.eqb a "x" then 1 else 0).
Proof. exact exposure_example. Qed.

Example C118_accepted_nonvacuous : (arguments_fit grid 1 slim /\ lookup "x" grid = Some 2 /\ lookup "y" grid = Some 1) /\
  forall g j, measured_array g j false same_draws (Some ("x", "y")) grid 1 slim = Some (mkNarray [("w", 2); ("x", 2); ("y", 1)] [1; 1; 0; 0]%Z) /\
    measured_array g j true same_draws None grid 1 slim = Some (mkNarray grid [3; 0; 0; 0]%Z).
Proof. exact (conj slim_fits (fun g j => conj (slim_measured g j) (slim_single g j))). Qed.
