(** Specification vocabulary for gridded products in time frames. *)
From Coq Require Import List ZArith QArith Bool String.
From Verif Require Import Base Traversal Glm ChunkSpec FileName Imagery PipelineSpec Gridder.
Import ListNotations.

Local Notation tbl := (table obs).

(** Frame [t] of the given edges: from one edge to just before the next. *)
Definition during (edges : list Q) (t : nat) (v : Q) : Prop :=
  exists a b, nth_error edges t = Some a /\ nth_error edges (S t) = Some b /\ (a <= v < b)%Q.
Definition duringb (edges : list Q) (t : nat) (v : Q) : bool :=
  match skipn t edges with a :: b :: _ => (Qle_bool a v && negb (Qle_bool b v))%bool | _ => false end.
(** The files whose product time is in the frame, as opened datasets. *)
Definition files_during (edges : list Q) (t : nat) (files : list glmfile) : list (list tbl) :=
  map f_ds (filter (fun f => duringb edges t (f_time f)) files).
(** The files whose product time is in any of the frames. *)
Definition files_within (edges : list Q) (files : list glmfile) : list (list tbl) :=
  map f_ds (filter (fun f => match edges with a :: _ => (Qle_bool a (f_time f) && negb (Qle_bool (last edges a) (f_time f)))%bool | [] => false end) files).

(** The value at x, y, time of the array that is written under the given name. *)
Definition product (arrays : list array3) (name : string) (x y t : nat) (v : fval) : Prop :=
  exists k a, nth_error lut_names k = Some name /\ nth_error arrays k = Some a /\ a_at a x y t = v.

(** Flashes and groups selected from a file. *)
Definition chosen set_order (q : option query) (f : glmfile) (FG : tbl * tbl) : Prop :=
  (nth_error (f_ds f) 2 = Some [] /\ FG = ([], [])) \/
  ((exists e E, nth_error (f_ds f) 2 = Some (e :: E)) /\ exists E, selection set_order (f_ds f) q [fst FG; snd FG; E]).
(** Position [v] lies in cell [k] of an axis; the last cell includes its end. *)
Definition inside_cell (edges : list Q) (k : nat) (v : fval) : bool :=
  match v with
  | Some v => (Qle_bool (nth k edges 0%Q) v &&
      (negb (Qle_bool (nth (S k) edges 0%Q) v) || (Nat.eqb k (List.length edges - 2) && Qeq_bool v (nth (S k) edges 0%Q))))%bool
  | None => false
  end.
(** Number of rows located in cell kx, ky at times in frame [t]. *)
Definition located (xe ye te : list Q) (kx ky t : nat) (times : Z -> Q) (rows : tbl) : nat :=
  List.length (filter (fun r => (inside_cell xe kx (o_x (rdat r)) && inside_cell ye ky (o_y (rdat r))
                                 && duringb te t (times (rid r)))%bool) rows).
(** Events of the flashes selected from a file. *)
Definition chosen_events set_order (q : option query) (f : glmfile) (E : tbl) : Prop :=
  (nth_error (f_ds f) 2 = Some [] /\ E = []) \/ ((exists v E, nth_error (f_ds f) 2 = Some (v :: E)) /\ exists F G, selection set_order (f_ds f) q [F; G; E]).
(** Energy of those of the events that occurred in frame [t]. *)
Definition energy_during (te : list Q) (t : nat) (times : Z -> Q) (E : tbl) : Q :=
  qsum (map (fun e => match o_energy (rdat e) with Some v => v | None => 0%Q end) (filter (fun e => duringb te t (times (rid e))) E)).
(** Value in the field of the given name of a written file at row [r] and column [c]. *)
Definition pixel_named (f : outfile) (name : string) (r c : nat) (w : fval) : Prop :=
  exists rows row, In (name, rows) (of_fields f) /\ nth_error rows r = Some row /\ nth_error row c = Some w.
