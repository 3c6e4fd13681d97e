(** optika/targets/_airforce/_airforce.py: the resolution target. *)
From Coq Require Import Reals String List.
From Verif Require Import Num.
Import ListNotations.
Open Scope R_scope.
Open Scope opt_scope.

(** A picture: rows from the top, pixels from the left, the levels of the colors of a pixel. *)
Definition picture : Type := list (list (list R)).

(** Lines 50-67: the drawing rendered with the given number of pixels by pymupdf, as it is read back from a file by
    matplotlib; an argument of the model. *)
Definition renderer : Type := nat -> nat -> picture.

(** [img.max()]: NaN for an empty array (where numpy raises an exception). *)
Definition list_max (l : list R) : option R :=
  match l with [] => None | x :: l => Some (fold_left Rmax l x) end.

(** Lines 69-73: [img.astype(float)[::-1].sum(~0)], then [img / img.max()], then [-img + 1]. *)
Definition brightness (img : picture) : list (list R) := map (map rsum) (rev img).
Definition normalized (img : list (list R)) : option (list (list (option R))) :=
  let* top := list_max (concat img) in
  Some (map (map (fun x => let* q := odiv x top in Some (- q + 1))) img).
Definition target_of (img : picture) : option (list (list (option R))) := normalized (brightness img).

(** ** Files *)

(** The files of the working directory by name. *)
Definition directory : Type := string -> option picture.
(** Line 63 *)
Definition fn : string := "tmp.png".
Definition write (name : string) (img : picture) (d : directory) : directory :=
  fun other => if String.eqb other name then Some img else d other.

(** Lines 50-77: a call that nothing disturbs.  [None] if the file is missing. *)
Definition airforce (render : renderer) (num_x num_y : nat) (d : directory) : option (option (list (list (option R)))) * directory :=
  let pix := render num_x num_y in
  let d := write fn pix d in
  (option_map target_of (d fn), d).

(** Several programs in one working directory.  Each saves its picture (line 65), then reads the file (line 67).  (Saving a
    picture is one step here; in truth another program can also read half a file.) *)
Inductive process :=
  | Begin (num_x num_y : nat)
  | Saved (num_x num_y : nat)
  | Finished (num_x num_y : nat) (result : option (option (list (list (option R))))).
Definition advance (render : renderer) (p : process) (d : directory) : process * directory :=
  match p with
  | Begin x y => (Saved x y, write fn (render x y) d)
  | Saved x y => (Finished x y (option_map target_of (d fn)), d)
  | Finished x y result => (Finished x y result, d)
  end.
Fixpoint advance_nth (render : renderer) (n : nat) (ps : list process) (d : directory) : list process * directory :=
  match ps, n with
  | [], _ => ([], d)
  | p :: ps, O => let (p, d) := advance render p d in (p :: ps, d)
  | p :: ps, S n => let (ps, d) := advance_nth render n ps d in (p :: ps, d)
  end.
(** The programs advance in the order of the schedule. *)
Fixpoint interleave (render : renderer) (schedule : list nat) (ps : list process) (d : directory) : list process * directory :=
  match schedule with
  | [] => (ps, d)
  | n :: schedule => let (ps, d) := advance_nth render n ps d in interleave render schedule ps d
  end.
