(** Model of the point data made of GLM flashes, groups and events for lmatools when
    they are not split by a grid (glmtools/io/mimic_lma.py 30-113, 320-579, 582-805,
    974-1102), of the selection in examples/glm-lasso-stats.py 143-165 and of the
    initiation points of examples/flash_init_dataset.py. *)
From Coq Require Import List ZArith QArith Bool String.
From Verif Require Import Base Traversal Glm Pipeline.
Import ListNotations.
Open Scope Z_scope.

Local Notation tbl := (table obs).

(** The decoded times of the dataset by id, in nanoseconds from a fixed instant:
    event_time_offset, group_time_offset, flash_time_offset_of_first_event and
    flash_time_offset_of_last_event. *)
Record clock := mkClock { t_event : Z -> Z; t_group : Z -> Z; t_first : Z -> Z; t_last : Z -> Z }.

(** mimic_lma.py 582-588: sec_since_basedate.  Without a base date,
    [np.datetime64(None)] is not a time and all differences are NaN. *)
Definition since (base : option Z) (t : Z) : fval :=
  match base with Some b => Some (inject_Z (t - b) / inject_Z 1000000000)%Q | None => None end.
(** Difference of floats with NaN (mimic_lma.py 662, 727, 793). *)
Definition fminus (a b : fval) : fval :=
  match a, b with Some x, Some y => Some (x - y)%Q | _, _ => None end.

(** Assignment of integers to columns of type '<i4' and '<i2': the low bits are kept.
    (NumPy 2 raises OverflowError for a plain integer that does not fit in '<i2'.) *)
Definition wrap (bits z : Z) : Z := (z + 2 ^ (bits - 1)) mod 2 ^ bits - 2 ^ (bits - 1).
(** Columns of type '<i4' (mimic_lma.py 592, 605). *)
Definition i4 : Z -> Z := wrap 32.
(** Columns of type '<i2' (mimic_lma.py 605). *)
Definition i2 : Z -> Z := wrap 16.

(** mimic_lma.py 591-605: rows of event_dtype and flash_dtype.  The columns mesh_frac,
    mesh_xi and mesh_yi are left unset in this mode and are omitted.  Rounding to '<f4'
    is not modelled. *)
Record child := mkChild
  { c_id : Z; c_alt : Q; c_lat : fval; c_lon : fval; c_time : fval; c_power : fval }.
(** mimic_lma.py 598-605: a row of flash_dtype. *)
Record parent := mkParent
  { p_area : fval; p_energy : fval; p_specific : Q;
    p_ctr_lat : fval; p_ctr_lon : fval; p_ctr_alt : Q;
    p_start : fval; p_duration : fval;
    p_init_lat : fval; p_init_lon : fval; p_init_alt : Q;
    p_id : Z; p_n : Z }.

Section Points.
Variable set_order : list Z -> list Z.
(** What [np.empty_like] finds in memory. *)
Variable junk : nat -> child.
(** [np.empty_like] (mimic_lma.py 629, 694, 760). *)
Definition unset (n : nat) : list child := map junk (seq 0 n).

(** The child rows are filled alike in 646-651, 711-716 and 777-782. *)
Definition fill_children (ck : clock) (base : option Z) (key : row obs -> Z) (E : tbl) : list child :=
  map (fun e => mkChild (i4 (key e)) 0 (o_lat (rdat e)) (o_lon (rdat e))
                  (since base (t_event ck (rid e))) (o_energy (rdat e))) E.
(** The parent rows are filled alike in 653-672, 718-737 and 784-803, with
    [number_of_events.shape[0]] for n_points. *)
Definition fill_parents (t0 t1 : Z -> Z) (base : option Z) (area : row obs -> fval) (n_events : nat) (T : tbl) : list parent :=
  map (fun r => let o := rdat r in
         mkParent (area r) (o_energy o) 0 (o_lat o) (o_lon o) 0
           (since base (t0 (rid r))) (fminus (since base (t1 (rid r))) (since base (t0 (rid r))))
           (o_lat o) (o_lon o) 0 (i4 (rid r)) (i2 (Z.of_nat n_events))) T.

(** mimic_lma.py 611-674, without split data. *)
Definition fake_lma_flashes (ck : clock) (base : option Z) (F E : tbl) : list child * list parent :=
  match F with
  | [] => (unset (List.length E), [])
  | _ => (fill_children ck base (fun e => o_flash (rdat e)) E,
          fill_parents (t_first ck) (t_last ck) base (fun f => o_area (rdat f)) (List.length E) F)
  end.
(** mimic_lma.py 676-739 *)
Definition fake_lma_groups (ck : clock) (base : option Z) (G E : tbl) : list child * list parent :=
  match G with
  | [] => (unset (List.length E), [])
  | _ => (fill_children ck base (@rpid obs) E,
          fill_parents (t_group ck) (t_group ck) base (fun g => o_area (rdat g)) (List.length E) G)
  end.
(** mimic_lma.py 742-805 *)
Definition fake_lma_events (ck : clock) (base : option Z) (E : tbl) : list child * list parent :=
  match E with
  | [] => (unset (List.length E), [])
  | _ => (fill_children ck base (@rid obs) E,
          fill_parents (t_event ck) (t_event ck) base (fun _ => Some 0%Q) (List.length E) E)
  end.

(** mimic_lma.py 974-1010: the dictionary with keys 'flash', 'group' and 'event'. *)
Record batch := mkBatch { b_flash : list child * list parent; b_group : list child * list parent; b_event : list child * list parent }.
(** mimic_lma.py 320-579, read_flash_chunk with clip_events=False. *)
Definition point_chunk (ck : clock) (base : option Z) (ds : list tbl) : res batch :=
  match ds with
  | [F; G; E] => Ok (mkBatch (fake_lma_flashes ck base F E) (fake_lma_groups ck base G E) (fake_lma_events ck base E))
  | _ => Err AttributeError
  end.
(** mimic_lma.py 30-113, read_flashes with clip_events=False, target=None. *)
Definition read_points (ck : clock) (base : option Z) (chunk_size : nat) (ds : list tbl) (q : option query) : res (list batch) :=
  chunks <- flash_chunks set_order chunk_size ds q ;; map_res (point_chunk ck base) chunks.
(** mimic_lma.py 565-574: with a target, a batch is sent when it has children at the flash level. *)
Definition sent_points (bs : list batch) : list batch :=
  filter (fun b => Nat.leb 1 (List.length (fst (b_flash b)))) bs.

(** A file on disk: product_time (nanoseconds) and what GLMDataset makes of it. *)
Record glmfile := mkFile { g_product : Z; g_clock : clock; g_data : list tbl }.
Variable disk : string -> res glmfile.

(** LMAh5Collection of lmatools is assumed to call _table_times_for_file for every name
    in order, to sort the times it yields and, when iterated, to yield data_for_time of
    each.  mimic_lma.py 1024-1036: _table_times_for_file; the time is truncated to
    seconds.  [_time_lookup] is a dictionary. *)
Definition whole_second (t : Z) : Z := t / 1000000000.
(** The dictionary [_time_lookup] (mimic_lma.py 1035). *)
Definition lookup_table := list (Z * string).
(** [d[k] = v] *)
Fixpoint dict_set (d : lookup_table) (k : Z) (v : string) : lookup_table :=
  match d with
  | [] => [(k, v)]
  | (k', v') :: d' => if k' =? k then (k, v) :: d' else (k', v') :: dict_set d' k v
  end.
(** [d[k]] *)
Fixpoint dict_get (d : lookup_table) (k : Z) : res string :=
  match d with [] => Err KeyError | (k', v) :: d' => if k' =? k then Ok v else dict_get d' k end.
(** Insertion into sorted times. *)
Fixpoint insert_time (t : Z) (l : list Z) : list Z :=
  match l with [] => [t] | s :: r => if t <=? s then t :: l else s :: insert_time t r end.
(** [sorted(l)], as assumed of lmatools. *)
Definition sort_times (l : list Z) : list Z := fold_right insert_time [] l.
(** A GLMncCollection (mimic_lma.py 1012-1036). *)
Record collection := mkColl { cl_lookup : lookup_table; cl_times : list Z }.
(** Construction of a GLMncCollection (mimic_lma.py 1018-1036). *)
Definition open_collection (names : list string) : res collection :=
  st <- fold_res (fun st n =>
          f <- disk n ;; let t := whole_second (g_product f) in
          Ok (dict_set (fst st) t n, snd st ++ [t])) names ([], []) ;;
  Ok (mkColl (fst st) (sort_times (snd st))).

(** mimic_lma.py 1038-1056: data_for_time, with the default chunk_size of read_flashes
    and the options of the collection as [lon], [lat], [min_events], [min_groups].
    [np.hstack] of nothing raises.  (It is given generators, 1052-1054, which recent NumPy
    refuses with TypeError; here it accepts them.) *)
Definition collection_query (lon lat : option (Q * Q)) (min_events min_groups : option Z) : option query :=
  match lon, lat, min_events, min_groups with
  | None, None, None, None => None
  | _, _, _, _ => Some (mkQuery lon lat None None true min_events min_groups)
  end.
(** mimic_lma.py 1045-1056 for an opened file. *)
Definition data_of_file (base : option Z) (q : option query) (f : glmfile) : res (list child * list parent) :=
  bs <- read_points (g_clock f) base (Z.to_nat 20000) (g_data f) q ;;
  match bs with
  | [] => Err ValueError
  | _ => Ok (List.concat (map (fun b => fst (b_flash b)) bs), List.concat (map (fun b => snd (b_flash b)) bs))
  end.
(** mimic_lma.py 1038-1056: data_for_time. *)
Definition data_for_time (base : option Z) (q : option query) (c : collection) (t : Z) : res (list child * list parent) :=
  n <- dict_get (cl_lookup c) t ;; f <- disk n ;; data_of_file base q f.
(** Iteration over a collection, as assumed of lmatools. *)
Definition iterate (base : option Z) (q : option query) (c : collection) : res (list (list child * list parent)) :=
  map_res (data_for_time base q c) (cl_times c).
(** mimic_lma.py 1058-1066: TimeSeriesGLMFlashSubset.  [parent_base t_start base] is the
    base date that the superclass (lmatools) chooses. *)
Definition subset_series (parent_base : Z -> option Z -> Z) (names : list string) (t_start : Z) (base : option Z)
  (q : option query) : res (list (list child * list parent)) :=
  let self_base := parent_base t_start None in
  c <- open_collection names ;; iterate (Some self_base) q c.

(** mimic_lma.py 1094-1102: the polygon filter on one time window.  [lasso lon lat t]
    is the mask that lmatools computes for a point. *)
Definition lasso_window (lasso : fval -> fval -> fval -> bool) (w : list child * list parent) : list child * list parent :=
  (filter (fun c => lasso (c_lon c) (c_lat c) (c_time c)) (fst w),
   filter (fun p => lasso (p_init_lon p) (p_init_lat p) (p_start p)) (snd w)).

(** examples/glm-lasso-stats.py 145-165: gen_filtered_time_series with the bounds
    'area', 'ctr_alt' and 'total_energy', none of which is a column of the events. *)
Definition within (b : Q * Q) (v : fval) : bool :=
  match v with Some x => Qle_bool (fst b) x && Qle_bool x (snd b) | None => false end.
(** glm-lasso-stats.py 145-165 for one window. *)
Definition filtered (area alt energy : Q * Q) (w : list child * list parent) : list child * list parent :=
  (fst w, filter (fun p => within area (p_area p) && within alt (Some (p_ctr_alt p)) && within energy (p_energy p))%bool (snd w)).

(** examples/flash_init_dataset.py 6-13: get_first_group; [argmin] gives the first of
    the smallest. *)
Fixpoint argmin_row (t : Z -> Z) (best : row obs) (l : tbl) : row obs :=
  match l with [] => best | g :: r => argmin_row t (if t (rid g) <? t (rid best) then g else best) r end.
(** flash_init_dataset.py 6-13: get_first_group. *)
Definition first_group (t : Z -> Z) (l : tbl) : res (row obs) :=
  match l with [] => Err ValueError | g :: r => Ok (argmin_row t g r) end.
(** flash_init_dataset.py 35-44: get_flash_init_data; the groups of every parent id, ids ascending. *)
Definition init_data (t : Z -> Z) (G : tbl) : res (list (Z * fval * fval)) :=
  map_res (fun i => g <- first_group t (filter (fun g => rpid g =? i) G) ;;
                    Ok (i4 (rpid g), o_lon (rdat g), o_lat (rdat g))) (zunique (map rpid G)).
(** flash_init_dataset.py 46-63: add_flash_init_data.  Assignment aligns the labels: a flash without data
    gets NaN.  The check of the ids raises for it ([int] of NaN). *)
Definition find_init (d : list (Z * fval * fval)) (i : Z) : option (Z * fval * fval) :=
  find (fun x => fst (fst x) =? i) d.
(** flash_init_dataset.py 46-63: add_flash_init_data. *)
Definition add_flash_init (t : Z -> Z) (F G : tbl) : res (list (Z * fval * fval)) :=
  d <- init_data t G ;;
  map_res (fun f => match find_init d (rid f) with
                    | Some (_, lon, lat) => Ok (rid f, lon, lat)
                    | None => Err ValueError end) F.
End Points.
