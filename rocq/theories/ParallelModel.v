(** The parallel loop of _electrons_measured_numba
    (optika/sensors/materials/_ramanathan_2020/_ramanathan_2020.py:785-876).

    [numba.prange] runs the iterations in an arbitrary interleaving.  An increment
    [result[i, x, y] += 1] is not atomic: the element is loaded into a register of the thread
    and stored later.  Every other variable of the body is private to the iteration. *)
From Coq Require Import List ZArith Bool.
From Verif Require Import Num RamanathanModel.
Import ListNotations.
Open Scope opt_scope.

(** An element of the shared array: slice, row, column. *)
Definition address : Type := nat * (Z * Z).
Definition memory : Type := nat -> Z -> Z -> Z.
Definition read (m : memory) (a : address) : Z := m (fst a) (fst (snd a)) (snd (snd a)).
Definition write (m : memory) (a : address) (v : Z) : memory :=
  fun i x y => if Nat.eqb i (fst a) && ((x =? fst (snd a)) && (y =? snd (snd a)))%Z then v else m i x y.

Inductive instruction := Load (a : address) | StoreNext (a : address).

(** An iteration of the loop: what it has left to do, and its register. *)
Record thread := mkThread { th_code : list instruction; th_register : Z }.

(** The increments of iteration [i]. *)
Definition thread_of (i : nat) (writes : list (Z * Z)) : thread :=
  mkThread (flat_map (fun w => [Load (i, w); StoreNext (i, w)]) writes) 0.

Definition execute (m : memory) (t : thread) : memory * thread :=
  match th_code t with
  | [] => (m, t)
  | Load a :: rest => (m, mkThread rest (read m a))
  | StoreNext a :: rest => (write m a (th_register t + 1), mkThread rest (th_register t))
  end.

Fixpoint set_nth {A} (k : nat) (a : A) (l : list A) : list A :=
  match k, l with
  | _, [] => []
  | O, _ :: rest => a :: rest
  | S k, b :: rest => b :: set_nth k a rest
  end.

(** One instruction of thread [k]; a thread that does not exist does nothing. *)
Definition step (st : memory * list thread) (k : nat) : memory * list thread :=
  match nth_error (snd st) k with
  | None => st
  | Some t => let '(m, t) := execute (fst st) t in (m, set_nth k t (snd st))
  end.
Definition schedule (st : memory * list thread) (ks : list nat) : memory * list thread := fold_left step ks st.

(** The loop over all slices, in the order of a schedule. *)
Fixpoint all_writes (wrap : bool) (num_x num_y : Z) (ss : list mc_slice) : option (list (list (Z * Z))) :=
  match ss with
  | [] => Some []
  | s :: rest => let* w := slice_writes wrap num_x num_y s in
                 let* ws := all_writes wrap num_x num_y rest in Some (w :: ws)
  end.
Definition threads (ws : list (list (Z * Z))) : list thread :=
  map (fun iw => thread_of (fst iw) (snd iw)) (combine (seq 0 (length ws)) ws).
Definition run_parallel (wrap : bool) (num_x num_y : Z) (ss : list mc_slice) (ks : list nat)
    : option (memory * list thread) :=
  let* ws := all_writes wrap num_x num_y ss in
  Some (schedule (fun _ => zeros, threads ws) ks).
