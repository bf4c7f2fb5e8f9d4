(** Specification vocabulary for the gridding pipeline. *)
From Coq Require Import List ZArith QArith Qabs Bool.
From Verif Require Import Base Traversal Glm Lut LutSpec Accum Poly PolySpec BBox BBoxSpec Slice SliceSpec Pipeline.
Import ListNotations.

Definition same_cell (c d : nat * nat) : bool := (Nat.eqb (fst c) (fst d) && Nat.eqb (snd c) (snd d))%bool.
(** Size of the pieces of polygon [p], cut by [cells], that lie in cell [c]. *)
Definition size_in (clip : poly -> poly -> list poly) (m : mesh) (p : poly) (cells : list (nat * nat)) (c : nat * nat) : Q :=
  qsum (map (fun e => size (fst e)) (filter (fun e => same_cell (snd e) c) (cut clip m p cells))).
(** Sum of a quantity over the rows of all tables. *)
Definition over (f : lutrow -> Q) (tables : list (list lutrow)) : Q := qsum (map f (List.concat tables)).
(** Sum of all cells of a grid. *)
Definition grid_total (g : grid) : Q :=
  qsum (map (fun a => qsum (map (fun b => num (g_at g (Z.of_nat a) (Z.of_nat b))) (seq 0 (Z.to_nat (g_n1 g))))) (seq 0 (Z.to_nat (g_n0 g)))).
(** The cells looked up for a polygon: those near the mean of its vertices (C29 and C49
    say which these are). *)
Definition nearby (tree : Q * Q -> list (Z * Z)) (m : mesh) (p : poly) : list (nat * nat) :=
  match quads_nearest tree m (vertex_mean p) with
  | Ok l => map (fun c => (Z.to_nat (fst c), Z.to_nat (snd c))) l
  | Err _ => []
  end.
(** Size of the cell that is number [kx] in x and [ky] in y. *)
Definition cell_size (xs ys : list Q) (kx ky : nat) : Q :=
  ((edge xs (S kx) - edge xs kx) * (edge ys (S ky) - edge ys ky))%Q.
(** The event lookup tables made while files are read: one for every chunk of flashes. *)
Definition tables_of_file set_order weird chunk_size q (ds : list (table obs)) (tables : list (list lutrow)) : Prop :=
  (nth_error ds 2 = Some [] /\ tables = []) \/
  (exists e E, nth_error ds 2 = Some (e :: E)) /\
  exists chunks, flash_chunks set_order chunk_size ds q = Ok chunks /\
    Forall2 (fun c t => get_lutevents weird lut_scale lut_range lut_range c = Ok t) chunks tables.
Definition tables_read set_order weird chunk_size q files (tables : list (list lutrow)) : Prop :=
  exists tss, Forall2 (tables_of_file set_order weird chunk_size q) files tss /\ tables = List.concat tss.
(** [v] is the quantity [f], summed over the rows of all tables, each row weighted by [w]. *)
Definition sums_to (v : fval) (f : lutrow -> Q) (w : lutrow -> Q) (tables : list (list lutrow)) : Prop :=
  is_num v (over (fun r => f r * w r)%Q tables).
Definition qnat (n : nat) : Q := inject_Z (Z.of_nat n).
