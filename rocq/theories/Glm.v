(** Model of the class GLMDataset of glmtools/io/glm.py: opening a file and
    selecting flashes. *)
From Coq Require Import List ZArith QArith Bool String.
From Verif Require Import Base Traversal.
Import ListNotations.
Open Scope Z_scope.

(** Floating point values: [None] is NaN, finite values are exact rationals. *)
Definition fval := option Q.
(** [a < b] on finite numbers. *)
Definition Qlt_bool (a b : Q) : bool := negb (Qle_bool b a).
(** NumPy comparisons with NaN are False. *)
Definition flt (a : fval) (b : Q) : bool := match a with Some v => Qlt_bool v b | None => false end.
(** [a > b], false for NaN (glm.py 415-417, 507-516). *)
Definition fgt (a : fval) (b : Q) : bool := match a with Some v => Qlt_bool b v | None => false end.

(** The variables carried along each of the three dimensions.  One record is used
    for flashes, groups and events; the fields not present on a level are unused:
    [o_flash] is event_parent_flash_id; [o_nchild] is flash_child_group_count and
    group_child_event_count; [o_nevent] is flash_child_event_count. *)
Record obs := mkObs
  { o_lon : fval; o_lat : fval; o_energy : fval; o_area : fval;
    o_x : fval; o_y : fval; o_flash : Z; o_nchild : nat; o_nevent : nat }.

(** glm.py 188-189 *)
Definition entity_ids := ["flash_id"; "group_id"; "event_id"]%string.
(** glm.py 189. *)
Definition parent_ids := ["group_parent_flash_id"; "event_parent_group_id"]%string.
Local Notation tbl := (table obs).

(** Units and packing attributes of the variables changed on opening. *)
Record header := mkHeader
  { u_flash_energy : string; u_group_energy : string; u_event_energy : string;
    u_flash_area : string; u_group_area : string;
    ev_offset : Q; ev_scale : Q;
    fa_offset : Q; fa_scale : Q; fa_fill : Q;
    ga_offset : Q; ga_scale : Q; ga_fill : Q }.

Section Glm.
(** Iteration order of a Python set: an arbitrary rearrangement of its elements
    (given sorted).  The only assumption used in proofs is that it is a permutation. *)
Variable set_order : list Z -> list Z.
(** Fixed grid navigation of one lon, lat pair for the satellite and ellipsoid of
    the file (lightning_ellipse.py 68-133, modelled over the reals in Ellipse.v). *)
Variable nav : fval -> fval -> fval * fval.

(** [d[k]] of a dictionary (glm.py 215). *)
Fixpoint assoc {A} (k : string) (l : list (string * A)) : res A :=
  match l with
  | [] => Err KeyError
  | (k', a) :: l' => if String.eqb k' k then Ok a else assoc k l'
  end.

(** glm.py 198-219: the check_tree block. *)
Definition repair {P} (check_tree : bool) (ds : list (table P)) : res (list (table P)) :=
  if check_tree then
    tv <- trav_init ds entity_ids parent_ids ;;
    st <- check_parent_child tv ;;
    let '(entity_stats, parent_stats) := st in
    let problems := (existsb (fun x => Nat.ltb 0 (snd (fst (snd x)))) entity_stats
                     || existsb (fun x => Nat.ltb 0 (snd (fst (snd x)))) parent_stats)%bool in
    if problems then
      fs <- assoc "flash_id" entity_stats ;;
      let no_groups := snd fs in
      match nth_error ds 1 with
      | None => Err AttributeError
      | Some G =>
          let unq := zunique (map rpid G) in
          reduce_to_entities tv "flash_id" (set_order (zset_diff unq no_groups))
      end
    else Ok ds
  else Ok ds.

(** [dataset[name] = DataArray(vals, dims=[dim])]: xarray refuses an array whose
    length differs from that of an existing dimension. *)
Definition assign {A} (f : A -> obs -> obs) (vals : list A) (T : tbl) : res tbl :=
  if Nat.eqb (List.length vals) (List.length T)
  then Ok (map (fun '(v, r) => mkRow (rid r) (rpid r) (f v (rdat r))) (combine vals T))
  else Err ValueError.

(** glm.py 279: the column event_parent_flash_id. *)
Definition set_flash (i : Z) (o : obs) := mkObs (o_lon o) (o_lat o) (o_energy o) (o_area o) (o_x o) (o_y o) i (o_nchild o) (o_nevent o).
(** glm.py 299, 302: the columns flash_child_group_count and group_child_event_count. *)
Definition set_nchild (n : nat) (o : obs) := mkObs (o_lon o) (o_lat o) (o_energy o) (o_area o) (o_x o) (o_y o) (o_flash o) n (o_nevent o).
(** glm.py 305: the column flash_child_event_count. *)
Definition set_nevent (n : nat) (o : obs) := mkObs (o_lon o) (o_lat o) (o_energy o) (o_area o) (o_x o) (o_y o) (o_flash o) (o_nchild o) n.
(** glm.py 563-564, 569-570, 575-576: the fixed grid coordinates. *)
Definition set_xy (p : fval * fval) (o : obs) := mkObs (o_lon o) (o_lat o) (o_energy o) (o_area o) (fst p) (snd p) (o_flash o) (o_nchild o) (o_nevent o).
(** glm.py 316, 322, 328, 349: the energy column. *)
Definition set_energy (e : fval) (o : obs) := mkObs (o_lon o) (o_lat o) e (o_area o) (o_x o) (o_y o) (o_flash o) (o_nchild o) (o_nevent o).
(** glm.py 374, 378, 385, 391: the area column. *)
Definition set_area (a : fval) (o : obs) := mkObs (o_lon o) (o_lat o) (o_energy o) a (o_x o) (o_y o) (o_flash o) (o_nchild o) (o_nevent o).

(** glm.py 254-305: __init_parent_child_data. *)
Definition init_parent_child (ds : list tbl) : res (list tbl) :=
  tv <- trav_init ds entity_ids parent_ids ;;
  match ds with
  | [F; G; E] =>
      let no_data := (Nat.eqb (List.length F) 0 || Nat.eqb (List.length G) 0
                      || Nat.eqb (List.length E) 0)%bool in
      flash_ids <- (if no_data then Ok []
                    else replicate_parent_ids tv "flash_id" "event_parent_group_id") ;;
      E' <- assign set_flash flash_ids E ;;
      cnt <- (if no_data then Ok ([], [], [])
              else
                all <- count_children tv "flash_id" (Some "event_id"%string) ;;
                match all with
                | c0 :: c1 :: _ =>
                    Ok (c0, c1, map (fun f => match groups_get flash_ids (rid f) with
                                              | Some l => List.length l
                                              | None => 0%nat end) F)
                | _ => Err IndexError
                end) ;;
      let '(flash_child, group_child, ev_count) := cnt in
      F1 <- assign set_nchild flash_child F ;;
      G' <- assign set_nchild group_child G ;;
      F' <- assign set_nevent ev_count F1 ;;
      Ok [F'; G'; E']
  | _ => Err KeyError
  end.

(** glm.py 545-576: __init_fixed_grid_data. *)
Definition init_fixed_grid (ds : list tbl) : list tbl :=
  map (map (fun r => mkRow (rid r) (rpid r)
              (set_xy (nav (o_lon (rdat r)) (o_lat (rdat r))) (rdat r)))) ds.

(** Replace a column of the table at level [k]. *)
Definition on_level (k : nat) (f : obs -> obs) (ds : list tbl) : list tbl :=
  match nth_error ds k with
  | Some T => set_nth k (map (fun r => mkRow (rid r) (rpid r) (f (rdat r))) T) ds
  | None => ds
  end.

(** glm.py 335-352: _eliminate_zero_energy with fraction_of_min = 0.5. *)
Definition fix_zero (h : header) (e : fval) : fval :=
  let min_discr := (ev_offset h + ev_scale h)%Q in
  if flt e min_discr then Some ((1 # 2) * min_discr)%Q else e.
(** glm.py 335-352: _eliminate_zero_energy on the events. *)
Definition eliminate_zero_energy (h : header) (ds : list tbl) : list tbl :=
  on_level 2 (fun o => set_energy (fix_zero h (o_energy o)) o) ds.

(** glm.py 307-333: _change_energy_units.  Statements run in the order flash,
    group, event; each raises when its units are not 'J'. *)
Definition fscale (k : Q) (e : fval) : fval := option_map (fun v => v * k)%Q e.
(** glm.py 307-333: _change_energy_units. *)
Definition change_energy_units (h : header) (ds : list tbl) : res (header * list tbl) :=
  if negb (String.eqb (u_flash_energy h) "J") then Err ValueError
  else if negb (String.eqb (u_group_energy h) "J") then Err ValueError
  else if negb (String.eqb (u_event_energy h) "J") then Err ValueError
  else
    let k := (1000000000 # 1)%Q in
    let f := fun o => set_energy (fscale k (o_energy o)) o in
    Ok (mkHeader "nJ" "nJ" "nJ" (u_flash_area h) (u_group_area h)
          (ev_offset h) (ev_scale h) (fa_offset h) (fa_scale h) (fa_fill h)
          (ga_offset h) (ga_scale h) (ga_fill h),
        on_level 2 f (on_level 1 f (on_level 0 f ds))).

(** glm.py 354-380: _check_area_overflow. *)
Definition fix_nan (m : Q) (a : fval) : fval := match a with None => Some m | _ => a end.
(** glm.py 354-380: _check_area_overflow. *)
Definition check_area_overflow (h : header) (ds : list tbl) : list tbl :=
  let max_fl := (fa_offset h + fa_scale h * fa_fill h)%Q in
  let max_gr := (ga_offset h + ga_scale h * ga_fill h)%Q in
  on_level 0 (fun o => set_area (fix_nan max_fl (o_area o)) o)
    (on_level 1 (fun o => set_area (fix_nan max_gr (o_area o)) o) ds).

(** glm.py 382-396: _check_area_units. *)
Definition check_area_units (h : header) (ds : list tbl) : header * list tbl :=
  let f := fun o => set_area (fscale (1 # 1000000) (o_area o)) o in
  let fl := String.eqb (u_flash_area h) "m2" in
  let gr := String.eqb (u_group_area h) "m2" in
  (mkHeader (u_flash_energy h) (u_group_energy h) (u_event_energy h)
     (if fl then "km2" else u_flash_area h)%string (if gr then "km2" else u_group_area h)%string
     (ev_offset h) (ev_scale h) (fa_offset h) (fa_scale h) (fa_fill h)
     (ga_offset h) (ga_scale h) (ga_fill h),
   let ds1 := if fl then on_level 0 f ds else ds in
   if gr then on_level 1 f ds1 else ds1).

(** glm.py 153-252: the constructor.  The correction of times for October and
    November 2018 (425-467) is in Times.v; logging is not modelled. *)
Record options := mkOptions
  { calculate_parent_child : bool; opt_area : bool; opt_energy : bool; check_tree : bool }.
(** glm.py 188-252: the body of the constructor, in the order of its steps. *)
Definition glm_open (op : options) (h : header) (raw : list tbl) : res (header * list tbl) :=
  ds <- repair (check_tree op) raw ;;
  ds1 <- (if calculate_parent_child op
          then d <- init_parent_child ds ;; Ok (init_fixed_grid d)
          else Ok ds) ;;
  let '(h2, ds2) := if opt_area op then check_area_units h (check_area_overflow h ds1) else (h, ds1) in
  if opt_energy op then change_energy_units h2 (eliminate_zero_energy h2 ds2) else Ok (h2, ds2).

(** glm.py 398-423: _check_event_xy; the clipped range, and the sorted flash ids
    of the events inside. *)
Definition fov : Q := 1349 # 10000.
(** Python's max of two numbers (glm.py 407, 409). *)
Definition Qmaxb (a b : Q) : Q := if Qlt_bool a b then b else a.
(** Python's min of two numbers (glm.py 408, 410). *)
Definition Qminb (a b : Q) : Q := if Qlt_bool b a then b else a.
(** glm.py 406-410: a range clipped to the field of view. *)
Definition clip (r : Q * Q) : Q * Q := (Qmaxb (- fov) (fst r), Qminb fov (snd r)).
(** glm.py 415, 417, 507, 510, 512-513, 515-516: strictly within a range. *)
Definition inside (r : Q * Q) (v : fval) : bool := (flt v (snd r) && fgt v (fst r))%bool.
(** glm.py 398-423: _check_event_xy. *)
Definition check_event_ids (x_range y_range : Q * Q) (E : tbl) : list Z :=
  zunique (map (fun e => o_flash (rdat e))
    (filter (fun e => inside (clip x_range) (o_x (rdat e))
                      && inside (clip y_range) (o_y (rdat e)))%bool E)).

(** glm.py 478-532: subset_flashes, and 534-543: get_flashes. *)
Record query := mkQuery
  { q_lon : option (Q * Q); q_lat : option (Q * Q); q_x : option (Q * Q); q_y : option (Q * Q);
    q_check : bool; q_min_events : option Z; q_min_groups : option Z }.
(** glm.py 505-516: no restriction without a range. *)
Definition opt_inside (r : option (Q * Q)) (v : fval) : bool :=
  match r with None => true | Some r => inside r v end.
(** glm.py 517-520: no restriction without a minimum. *)
Definition opt_atleast (m : option Z) (n : nat) : bool :=
  match m with None => true | Some m => m <=? Z.of_nat n end.
(** glm.py 534-543: get_flashes. *)
Definition get_flashes (ds : list tbl) (ids : list Z) : res (list tbl) :=
  tv <- trav_init ds entity_ids parent_ids ;;
  reduce_to_entities tv "flash_id" ids.
(** glm.py 478-532: subset_flashes; line 531 reads a variable that only 530 binds. *)
Definition subset_flashes (ds : list tbl) (q : query) : res (list tbl) :=
  match ds with
  | [F; _; E] =>
      let flash_ids := map rid (filter (fun f =>
        (opt_inside (q_x q) (o_x (rdat f)) && opt_inside (q_y q) (o_y (rdat f))
         && opt_inside (q_lon q) (o_lon (rdat f)) && opt_inside (q_lat q) (o_lat (rdat f))
         && opt_atleast (q_min_events q) (o_nevent (rdat f))
         && opt_atleast (q_min_groups q) (o_nchild (rdat f)))%bool) F) in
      if q_check q then
        let dflt := (- fov, fov)%Q in
        let good := check_event_ids (match q_x q with Some r => r | None => dflt end)
                                    (match q_y q with Some r => r | None => dflt end) E in
        get_flashes ds (set_order (zset_inter (zunique flash_ids) good))
      else Err UnboundLocalError
  | _ => Err KeyError
  end.
End Glm.
