(** Vocabulary for tables of optical constants. *)
From Coq Require Import Reals.
From Coquelicot Require Import Coquelicot.
Open Scope R_scope.

(** A complex index that exists at every wavelength and depends continuously on it. *)
Definition continuous_index (f : R -> option (R * R)) : Prop :=
  exists n k : R -> R, continuity n /\ continuity k /\ forall w, f w = Some (n w, k w).

(** An index that exists at every wavelength, with its parts in these ranges. *)
Definition index_within (f : R -> option (R * R)) (n0 n1 k0 k1 : R) : Prop :=
  forall w, exists n k, f w = Some (n, k) /\ n0 <= n <= n1 /\ k0 <= k <= k1.
