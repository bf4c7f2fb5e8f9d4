(** Model of the other two ways to get initiation points in examples/flash_init_dataset.py:
    flash_init_manual (15-19) and calculate_flash_init with assign_flash_init (21-33,
    65-68).  The way of lines 35-63 is in Points.v. *)
From Coq Require Import List ZArith Bool.
From Verif Require Import Base Traversal Glm Points.
Import ListNotations.
Open Scope Z_scope.

(** flash_init_dataset.py 15-19: the lines that are printed, as id, latitude, longitude; the
    groups of every parent id, ids ascending. *)
Definition init_lines (t : Z -> Z) (G : table obs) : res (list (Z * fval * fval)) :=
  map_res (fun i => g <- first_group t (filter (fun g => rpid g =? i) G) ;;
                    Ok (i, o_lat (rdat g), o_lon (rdat g))) (zunique (map rpid G)).
(** flash_init_dataset.py 21-33: assign_flash_init on the flashes of one id; the result is the
    flash's id and what is assigned.  The assertion of line 22 is a ValueError here. *)
Definition assign_init (t : Z -> Z) (G l : table obs) : res (Z * fval * fval) :=
  match l with
  | [f] => match filter (fun g => rpid g =? rid f) G with
           | [] => Err KeyError
           | gs => g <- first_group t gs ;; Ok (rid f, o_lon (rdat g), o_lat (rdat g))
           end
  | _ => Err ValueError
  end.
(** flash_init_dataset.py 65-68: calculate_flash_init.  xarray applies the function to the
    flashes of every id, ids ascending, joins the results and puts them back in the order of
    the flashes.  Joining nothing raises. *)
Definition calculate_init (t : Z -> Z) (F G : table obs) : res (list (Z * fval * fval)) :=
  match F with [] => Err ValueError | _ =>
    d <- map_res (fun i => assign_init t G (filter (fun f => rid f =? i) F)) (zunique (map rid F)) ;;
    map_res (fun f => match find_init d (rid f) with Some o => Ok o | None => Err ValueError end) F
  end.
