(** Model of examples/grid/test_grid_specs.py 46-87: check_against_pug, the comparison of a
    written image with the definition of a sector.  Numbers are exact. *)
From Coq Require Import List ZArith QArith Qabs Bool.
From Verif Require Import Base Glm Lut FileName Imagery.
Import ListNotations.
Open Scope Q_scope.

(** The entries of the dictionary pug_spec that are read (test_grid_specs.py 53-87). *)
Record pug := mkPug { pg_ew : Z; pg_ns : Z; pg_res : Q; pg_span_ew : Q; pg_span_ns : Q; pg_ctr_ew : Q; pg_ctr_ns : Q }.

(** [np.testing.assert_allclose(actual, desired, rtol=1e-5, atol=...)] does not raise
    (test_grid_specs.py 63-64, 73-74, 80-87). *)
Definition near_to (atol actual desired : Q) : bool := Qle_bool (Qabs (actual - desired)) (atol + (1 # 100000) * Qabs desired).
(** [x[1:] - x[:-1]] (test_grid_specs.py 61-62). *)
Definition diffs (l : list Q) : list Q := map (fun p => snd p - fst p) (combine l (tl l)).
(** [.mean()] of something that is not empty (test_grid_specs.py 61-62). *)
Definition mean (l : list Q) : Q := fold_right Qplus 0 l / inject_Z (Z.of_nat (List.length l)).
(** The numbers, if there is no NaN among them. *)
Fixpoint numbers (l : list fval) : option (list Q) :=
  match l with
  | [] => Some []
  | Some q :: r => match numbers r with Some qs => Some (q :: qs) | None => None end
  | None :: _ => None
  end.
(** test_grid_specs.py 50-87 for one axis: whether none of its assertions raises.  A NaN or
    fewer than two coordinates make the mean distance NaN and so the first comparison fail. *)
Definition axis_passes (n : Z) (resolution span ctr : Q) (x : list fval) : bool :=
  (Z.of_nat (List.length x) =? n)%Z &&
  match numbers x with
  | Some ((_ :: _ :: _) as qs) =>
      let d := Qabs (mean (diffs qs)) in
      let lo := qmin_list qs in let hi := qmax_list qs in
      let w := Qabs (hi - lo) + d in
      near_to 0 d resolution && near_to 0 w span &&
      near_to (1 # 100000000) (hi - (w - d) / 2) ctr && near_to (1 # 100000000) (lo + (w - d) / 2) ctr
  | _ => false
  end.
(** test_grid_specs.py 46-87: true if no assertion raises.  (The assertions for the two axes
    alternate there; all of them raise AssertionError.) *)
Definition check_against_pug (x y : list fval) (p : pug) : bool :=
  axis_passes (pg_ew p) (pg_res p) (pg_span_ew p) (pg_ctr_ew p) x && axis_passes (pg_ns p) (pg_res p) (pg_span_ns p) (pg_ctr_ns p) y.
