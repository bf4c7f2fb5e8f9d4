(** Model of the times of a GLM file on opening (glmtools/io/glm.py 149-252) and of their
    correction for October and November 2018, _check_and_fix_missing_unsigned_time
    (425-467). *)
From Coq Require Import List ZArith QArith Bool String.
From Verif Require Import Base Traversal Glm.
Import ListNotations.
Open Scope Z_scope.

(** * The file *)
(** How a variable of times is packed: 16 bit codes; the _Unsigned attribute, scale_factor,
    add_offset, the epoch of "seconds since" (all in seconds) and _FillValue, if there is
    one. *)
Record tattr := mkAttr { ta_unsigned : bool; ta_scale : Q; ta_offset : Q; ta_epoch : Q; ta_fill : option Z }.
(** What xarray.open_dataset and xarray.decode_cf make of a code (glm.py 196, 460): NaT for
    the fill value.  Times are exact here; xarray rounds to nanoseconds. *)
Definition decode_time (a : tattr) (code : Z) : fval :=
  if match ta_fill a with Some z => z =? code | None => false end then None
  else Some (ta_epoch a + (ta_offset a + ta_scale a * inject_Z (if (ta_unsigned a && (code <? 0))%bool then code + 65536 else code)))%Q.
(** glm.py 456: [da.attrs['_Unsigned'] = 'true']. *)
Definition make_unsigned (a : tattr) : tattr := mkAttr true (ta_scale a) (ta_offset a) (ta_epoch a) (ta_fill a).
(** The codes of a row of the file, by variable (glm.py 451, decode_cf=False). *)
Definition codes := string -> Z.
(** The times of a row of the dataset, by variable (glm.py 196); None: there is no such
    variable. *)
Definition times := string -> option fval.
(** glm.py 433-438 *)
Definition vars_to_correct : list string :=
  ["event_time_offset"; "group_time_offset"; "group_frame_time_offset"; "flash_time_offset_of_first_event"; "flash_time_offset_of_last_event";
   "flash_frame_time_offset_of_first_event"; "flash_frame_time_offset_of_last_event"]%string.
(** The dimension of each of them: that of flashes, groups or events. *)
Definition level_of (v : string) : option nat :=
  if String.eqb v "event_time_offset" then Some 2%nat
  else if existsb (String.eqb v) ["group_time_offset"; "group_frame_time_offset"]%string then Some 1%nat
  else if existsb (String.eqb v) ["flash_time_offset_of_first_event"; "flash_time_offset_of_last_event"; "flash_frame_time_offset_of_first_event"; "flash_frame_time_offset_of_last_event"]%string then Some 0%nat
  else None.
(** A data source: whether it is a path rather than a dataset in memory (glm.py 191-196),
    product_time_bounds in seconds since 1970, the attributes of its variables of times,
    and its rows. *)
Record source := mkSource { s_path : bool; s_bounds : Q * Q; s_attr : string -> option tattr; s_rows : list (table (obs * codes)) }.
(** Another payload for a row. *)
Definition with_data {A B} (f : A -> B) (r : row A) : row B := mkRow (rid r) (rpid r) (f (rdat r)).
(** glm.py 196: the times of a row at level [k] as the attributes say. *)
Definition row_times (s : source) (k : nat) (c : codes) : times := fun v =>
  match level_of v, s_attr s v with
  | Some j, Some a => if Nat.eqb j k then Some (decode_time a (c v)) else None
  | _, _ => None
  end.
(** glm.py 196: the dataset. *)
Definition open_dataset (s : source) : list (table (obs * times)) :=
  map (fun kT => map (with_data (fun oc => (fst oc, row_times s (fst kT) (snd oc)))) (snd kT)) (combine (seq 0 (List.length (s_rows s))) (s_rows s)).

(** * The correction *)
(** glm.py 440: 2018-10-15, 17819 days after the first of 1970. *)
Definition start_problem : Q := inject_Z (17819 * 86400).
(** glm.py 441: 2018-11-06, 17841 days after the first of 1970. *)
Definition end_problem : Q := inject_Z (17841 * 86400).
(** glm.py 443 *)
Definition in_time (s : source) : bool := (Qle_bool start_problem (fst (s_bounds s)) && Qle_bool (snd (s_bounds s)) end_problem)%bool.
(** glm.py 464: [self.dataset[var] = decoded[var]]; no dimension has an index, so rows are
    matched by position, and another length is refused. *)
Definition assign_times (v : string) (k : nat) (col : list fval) (ds : list (table times)) : res (list (table times)) :=
  match nth_error ds k with
  | Some T =>
      if Nat.eqb (List.length col) (List.length T)
      then Ok (set_nth k (map (fun tr => with_data (fun old w => if String.eqb w v then Some (fst tr) else old w) (snd tr)) (combine col T)) ds)
      else Err ValueError
  | None => Err KeyError
  end.
(** glm.py 453-457, 460: a variable of the file as it is, decoded as unsigned. *)
Definition corrected (s : source) (v : string) : res (string * nat * list fval) :=
  match level_of v, s_attr s v with
  | Some k, Some a =>
      match nth_error (s_rows s) k with
      | Some T => Ok (v, k, map (fun r => decode_time (make_unsigned a) (snd (rdat r) v)) T)
      | None => Err AttributeError
      end
  | _, _ => Err AttributeError
  end.
(** glm.py 425-467.  Line 451 opens the source a second time; with a dataset in its place
    xarray.open_dataset raises (which exception depends on the version). *)
Definition fix_times (s : source) (ds : list (table times)) : res (list (table times)) :=
  if (in_time s && match s_attr s "group_frame_time_offset" with Some _ => true | None => false end)%bool then
    if s_path s then
      cols <- map_res (corrected s) vars_to_correct ;;
      fold_res (fun ds c => assign_times (fst (fst c)) (snd (fst c)) (snd c) ds) cols ds
    else Err ValueError
  else Ok ds.

Section Open.
Variable set_order : list Z -> list Z.
Variable nav : fval -> fval -> fval * fval.
(** glm.py 188-252: the constructor with the times; [fix_bad] is fix_bad_DO07_times.  The
    other variables as in [glm_open] of Glm.v. *)
Definition glm_open_timed (op : options) (fix_bad : bool) (h : header) (s : source) : res (header * list (table obs) * list (table times)) :=
  ds <- repair set_order (check_tree op) (open_dataset s) ;;
  let obs_part := map (map (with_data fst)) ds in
  let time_part := map (map (with_data snd)) ds in
  ds1 <- (if calculate_parent_child op then d <- init_parent_child obs_part ;; Ok (init_fixed_grid nav d) else Ok obs_part) ;;
  tm <- (if fix_bad then fix_times s time_part else Ok time_part) ;;
  let '(h2, ds2) := if opt_area op then check_area_units h (check_area_overflow h ds1) else (h, ds1) in
  r <- (if opt_energy op then change_energy_units h2 (eliminate_zero_energy h2 ds2) else Ok (h2, ds2)) ;;
  Ok (r, tm).
End Open.
