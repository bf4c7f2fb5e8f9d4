(** Model of the conversion of the ASCII listing to a dataset: glmtools/io/convert_lcfa.py 30-64
    and 136-158, and of what GLMDataset (glmtools/io/glm.py 188-252) asks of such a dataset.
    Reading of the lines is in Lcfa.v.  Writing and reading the NetCDF file keep the dataset. *)
From Coq Require Import List ZArith QArith Bool String.
From Verif Require Import Base FileName Lcfa Traversal.
Import ListNotations.
Open Scope Z_scope.

(** An entry of a column. *)
Inductive value := VI (z : Z) | VF (q : Q).
(** A variable of a dataset: name, dimension, values, and whether it is a coordinate. *)
Record var := mkV { v_name : string; v_dim : string; v_values : list value; v_coord : bool }.

(** convert_lcfa.py 76-84: the tuple of a flash. *)
Definition flash_row (f : flash) : list value :=
  [VI (f_id f); VF (f_first f); VF (f_last f); VF (f_lat f); VF (f_lon f); VF (f_energy f); VF (f_area f); VI (f_children f)].
(** convert_lcfa.py 96-104: the tuple of a group. *)
Definition group_row (g : group) : list value :=
  [VI (g_id g); VF (g_time g); VF (g_lat g); VF (g_lon g); VF (g_energy g); VF (g_area g); VI (g_parent g); VI (g_children g)].
(** convert_lcfa.py 116-124: the tuple of an event. *)
Definition event_row (e : event) : list value :=
  [VI (e_id e); VF (e_time e); VI (e_x e); VI (e_y e); VF (e_lat e); VF (e_lon e); VF (e_energy e); VI (e_parent e)].

(** convert_lcfa.py 31-34: flash_col_names. *)
Definition flash_col_names : list string :=
  ["flash_id"; "flash_time_offset_of_first_event"; "flash_time_offset_of_last_event"; "flash_lat"; "flash_lon";
   "flash_energy"; "flash_area"; "flash_child_group_count"]%string.
(** convert_lcfa.py 36-39: group_col_names. *)
Definition group_col_names : list string :=
  ["group_id"; "group_time_offset"; "group_lat"; "group_lon"; "group_energy"; "group_area"; "group_parent_flash_id";
   "group_child_event_count"]%string.
(** convert_lcfa.py 42-45: event_col_names. *)
Definition event_col_names : list string :=
  ["event_id"; "event_time_offset"; "x_pixel"; "y_pixel"; "event_lat"; "event_lon"; "event_energy"; "event_parent_group_id"]%string.
(** convert_lcfa.py 48-64: nc_coords. *)
Definition nc_coords : list string :=
  ["event_id"; "event_time_offset"; "event_lat"; "event_lon"; "event_parent_group_id";
   "group_id"; "group_time_offset"; "group_lat"; "group_lon"; "group_parent_flash_id";
   "flash_id"; "flash_time_offset_of_first_event"; "flash_time_offset_of_last_event"; "flash_lat"; "flash_lon"]%string.

(** [pd.DataFrame.from_records(rows, columns=names)] with the index named [dim], then
    [.to_xarray()] (convert_lcfa.py 136-143, 148-150): the index becomes the coordinate of the
    dimension and every column a variable along it. *)
Definition to_xarray (dim : string) (names : list string) (rows : list (list value)) : list var :=
  mkV dim dim (map (fun k => VI (Z.of_nat k)) (seq 0 (List.length rows))) true ::
  map (fun kn => mkV (snd kn) dim (map (fun r => nth (fst kn) r (VI 0)) rows) false) (combine (seq 0 (List.length names)) names).
(** Whether a dataset has a variable of that name. *)
Definition has (ds : list var) (n : string) : bool := existsb (fun v => String.eqb (v_name v) n) ds.
(** [a.merge(b)]; a name in both (which xarray would have to compare) is a ValueError here. *)
Definition merge (a b : list var) : res (list var) :=
  if existsb (fun v => has a (v_name v)) b then Err ValueError else Ok (a ++ b).
(** [ds.set_coords(names, inplace=True)], of the versions of xarray that have the argument;
    a name that is no variable raises. *)
Definition set_coords (names : list string) (ds : list var) : res (list var) :=
  if forallb (has ds) names
  then Ok (map (fun v => if existsb (String.eqb (v_name v)) names then mkV (v_name v) (v_dim v) (v_values v) true else v) ds)
  else Err ValueError.
(** convert_lcfa.py 147-153: merge_dataframes_to_xarray. *)
Definition merge_dataframes_to_xarray (fl : list flash) (gr : list group) (ev : list event) : res (list var) :=
  let evx := to_xarray "number_of_events" event_col_names (map event_row ev) in
  let flx := to_xarray "number_of_flashes" flash_col_names (map flash_row fl) in
  let grx := to_xarray "number_of_groups" group_col_names (map group_row gr) in
  eg <- merge evx grx ;; egf <- merge eg flx ;; set_coords nc_coords egf.
(** convert_lcfa.py 155-158: main, from the text of the input to the dataset in the output. *)
Definition convert (text : pystr) : res (list var) :=
  t <- parse_LCFA_ASCII text ;; merge_dataframes_to_xarray (fst (fst t)) (snd (fst t)) (snd t).

(** [getattr(ds, name)] *)
Definition getvar (ds : list var) (n : string) : res var :=
  match find (fun v => String.eqb (v_name v) n) ds with Some v => Ok v | None => Err AttributeError end.
(** The integers of a column; ids that are not integers do not occur. *)
Definition ints (l : list value) : res (list Z) := map_res (fun x => match x with VI z => Ok z | VF _ => Err TypeError end) l.
(** traversal.py 63-94 on this dataset: the rows of one entity, as ids, parent ids and places. *)
Definition entity_table (ds : list var) (idv : string) (pv : option string) : res (table nat) :=
  i <- getvar ds idv ;; is <- ints (v_values i) ;;
  ps <- match pv with Some p => v <- getvar ds p ;; ints (v_values v) | None => Ok is end ;;
  Ok (map (fun k => mkRow (nth k is 0) (nth k ps 0) k) (seq 0 (List.length is))).
(** The three tables (glm.py 188-189). *)
Definition tree_tables (ds : list var) : res (list (table nat)) :=
  f <- entity_table ds "flash_id" None ;; g <- entity_table ds "group_id" (Some "group_parent_flash_id"%string) ;;
  e <- entity_table ds "event_id" (Some "event_parent_group_id"%string) ;; Ok [f; g; e].
(** glm.py 228-252 for a dataset whose variables have no packing and no units (the tree in
    order): the first thing missing, in the order in which the methods ask for it
    (glm.py 550, 442, 366-368 and 388, 348). *)
Definition glmdataset_needs (calculate_parent_child fix_bad_DO07_times check_area_units change_energy_units : bool) (ds : list var) : res unit :=
  _ <- (if calculate_parent_child then _ <- getvar ds "lon_field_of_view" ;; Ok tt else Ok tt) ;;
  _ <- (if fix_bad_DO07_times then _ <- getvar ds "product_time_bounds" ;; Ok tt else Ok tt) ;;
  _ <- (if check_area_units then _ <- getvar ds "flash_area" ;; Err KeyError else Ok tt) ;;
  if change_energy_units then _ <- getvar ds "event_energy" ;; Err KeyError else Ok tt.
