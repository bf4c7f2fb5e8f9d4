(** Specification vocabulary for the event lookup table. *)
From Coq Require Import List ZArith QArith Qround Bool.
From Verif Require Import Base Traversal TraversalSpec Glm Lut.
Import ListNotations.
Open Scope Z_scope.

Local Notation tbl := (table obs).

(** [v] is the number [q] (up to equality of rationals), not NaN. *)
Definition is_num (v : fval) (q : Q) : Prop := exists x, v = Some x /\ (x == q)%Q.
(** The number held by [v]. *)
Definition num (v : fval) : Q := match v with Some q => q | None => 0%Q end.
Definition numbers (l : list fval) : Prop := forall v, In v l -> v <> None.

(** Column (or row) number of coordinate [x] in cells of size [scale] counted from [off]. *)
Definition cell_index (scale off x : Q) : Z := Qfloor ((x - off) / scale).

(** The events in the cell with identifier [k], when [c] gives the identifier of
    the cell of an event. *)
Definition cell_events (c : row obs -> Z) (E : tbl) (k : Z) : tbl := filter (fun e => c e =? k) E.
(** Flashes, and groups, with an event among [C]. *)
Definition flashes_of (F C : tbl) : tbl :=
  filter (fun f => existsb (fun e => o_flash (rdat e) =? rid f) C) F.
Definition groups_of (G C : tbl) : tbl :=
  filter (fun g => existsb (fun e => rpid e =? rid g) C) G.

Definition areas (T : tbl) : list fval := map (fun r => o_area (rdat r)) T.
Definition energies (T : tbl) : list fval := map (fun r => o_energy (rdat r)) T.
Definition xs (T : tbl) : list fval := map (fun r => o_x (rdat r)) T.
Definition ys (T : tbl) : list fval := map (fun r => o_y (rdat r)) T.
Definition total (l : list fval) : Q := qsum (map num l).

(** [v] is the mean of the numbers [l]. *)
Definition mean_of (l : list fval) (v : fval) : Prop :=
  is_num v (total l / inject_Z (Z.of_nat (List.length l)))%Q.
(** [v] is the least of the numbers [l]. *)
Definition least_of (l : list fval) (v : fval) : Prop :=
  exists a, v = Some a /\ In (Some a) l /\ forall b, In (Some b) l -> (a <= b)%Q.
