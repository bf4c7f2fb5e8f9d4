(** Model of the event lookup table of glmtools/io/glm.py (584-735): events of a
    dataset merged by discretised fixed grid location. *)
From Coq Require Import List ZArith QArith Bool String.
From Verif Require Import Base Traversal Glm.
Import ListNotations.
Open Scope Z_scope.

Local Notation tbl := (table obs).

(** NumPy arithmetic on floats with NaN, rounding ignored. *)
Definition fadd (a b : fval) : fval :=
  match a, b with Some x, Some y => Some (x + y)%Q | _, _ => None end.
(** [a.sum()] (glm.py 684, 692, 701). *)
Definition fsum (l : list fval) : fval := fold_left fadd l (Some 0%Q).
(** [a.mean()]; NaN for an empty array. *)
Definition fmean (l : list fval) : fval :=
  match l with
  | [] => None
  | _ => option_map (fun s => s / inject_Z (Z.of_nat (List.length l)))%Q (fsum l)
  end.
(** [a.min()]: NaN if there is one; ValueError for an empty array. *)
Definition np_min2 (a b : fval) : fval :=
  match a, b with Some x, Some y => Some (if Qlt_bool y x then y else x) | _, _ => None end.
(** [a.min()] (glm.py 696). *)
Definition np_min (l : list fval) : res fval :=
  match l with [] => Err ValueError | a :: r => Ok (fold_left np_min2 r a) end.
(** Python's [min] of an iterable of floats: keeps the first unless a later one
    compares smaller (never, if NaN is involved). *)
Definition py_min2 (a b : fval) : fval :=
  match a, b with Some x, Some y => if Qlt_bool y x then Some y else Some x | _, _ => a end.
(** [min(...)] of glm.py 696-697. *)
Definition py_min (l : list fval) : res fval :=
  match l with [] => Err ValueError | a :: r => Ok (fold_left py_min2 r a) end.

Section Lut.
(** Value of the C cast from double to uint64 for NaN and for numbers outside the
    range, which C leaves unspecified. *)
Variable weird : fval -> Z.

(** Number of values of a 64 bit unsigned integer (glm.py 712). *)
Definition two64 : Z := 18446744073709551616.
(** [v.astype('uint64')]: truncation towards zero. *)
Definition cast_u64 (v : fval) : Z :=
  match v with
  | Some q => let t := Z.quot (Qnum q) (Zpos (Qden q)) in
              if (0 <=? t) && (t <? two64) then t else weird v mod two64
  | None => weird v mod two64
  end.

(** glm.py 712-735: discretize_2d_location with int_type='uint64'.  The division
    is exact here, rounded in the code.  Line 731 (discr_y_max) is not used. *)
Definition fsubdiv (x : fval) (off scale : Q) : fval := option_map (fun v => (v - off) / scale)%Q x.
(** glm.py 712-735: discretize_2d_location, for one location. *)
Definition discretize (scale : Q) (x_range y_range : Q * Q) (x y : fval) : Z :=
  let discr_x_max := cast_u64 (Some ((snd x_range - fst x_range) / scale)%Q) in
  let x_discr := cast_u64 (fsubdiv x (fst x_range) scale) in
  let y_discr := cast_u64 (fsubdiv y (fst y_range) scale) in
  (x_discr + (y_discr * discr_x_max) mod two64) mod two64.

(** One row of the table, dtype at 646-657.  Counts are stored as 4 byte floats
    (exact up to 2^24), modelled as nat; the product time is left out. *)
Record lutrow := mkLut
  { lu_id : Z; lu_x : fval; lu_y : fval; lu_energy : fval;
    lu_count : nat; lu_fcount : nat; lu_gcount : nat;
    lu_farea : fval; lu_garea : fval; lu_minarea : fval }.

(** [groups[k]] (glm.py 683, 691, 696). *)
Definition lookup (ids : list Z) (k : Z) : res (list nat) :=
  match groups_get ids k with Some l => Ok l | None => Err KeyError end.

(** glm.py 669-709: one turn of the loop of event_lut_iter. *)
Definition lut_row (F G E : tbl) (xy_ids : list Z) (k : Z) : res lutrow :=
  evids <- lookup xy_ids k ;;
  evs <- gather E evids ;;
  let flash_ids := zunique (map (fun e => o_flash (rdat e)) evs) in
  let group_ids := zunique (map rpid evs) in
  replicated_flashes <- map_res (lookup (map rid F)) flash_ids ;;
  fl <- gather F (List.concat replicated_flashes) ;;
  replicated_groups <- map_res (lookup (map rid G)) group_ids ;;
  gr <- gather G (List.concat replicated_groups) ;;
  mins <- map_res (fun fid => i <- lookup (map rid F) fid ;; f <- gather F i ;;
                              np_min (map (fun r => o_area (rdat r)) f)) flash_ids ;;
  m <- py_min mins ;;
  Ok (mkLut k (fmean (map (fun e => o_x (rdat e)) evs)) (fmean (map (fun e => o_y (rdat e)) evs))
        (fsum (map (fun e => o_energy (rdat e)) evs))
        (List.length evids) (List.length flash_ids) (List.length group_ids)
        (fsum (map (fun r => o_area (rdat r)) fl)) (fsum (map (fun r => o_area (rdat r)) gr)) m).

(** glm.py 584-666: get_lutevents; the new rows only.  xarray refuses to group by
    an empty variable.  The dictionary of groups is iterated in increasing order
    of its keys. *)
Definition get_lutevents (scale : Q) (x_range y_range : Q * Q) (ds : list tbl)
  : res (list lutrow) :=
  match ds with
  | [F; G; E] =>
      let xy_ids := map (fun e => discretize scale x_range y_range (o_x (rdat e)) (o_y (rdat e))) E in
      if (Nat.eqb (List.length E) 0 || Nat.eqb (List.length F) 0 || Nat.eqb (List.length G) 0)%bool
      then Err ValueError
      else map_res (lut_row F G E xy_ids) (zunique xy_ids)
  | _ => Err KeyError
  end.
End Lut.
(** glm.py 584-585: default arguments. *)
Definition lut_scale : Q := 28 # 1000000.
(** glm.py 585: x_range and y_range. *)
Definition lut_range : Q * Q := (-(31 # 100), 31 # 100)%Q.
