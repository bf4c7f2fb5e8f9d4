(** Specification vocabulary for calls of grid_GLM_flashes. *)
From Coq Require Import List ZArith QArith Bool Ascii String.
From Verif Require Import Base Glm Lut FileName FileNameSpec Imagery ImagerySpec Aggregate Output Tiles Calls.
Import ListNotations.
Open Scope string_scope.
Open Scope list_scope.

(** Keyword arguments: every name once. *)
Definition keywords (kw : kwargs) : Prop := NoDup (map fst kw).
(** A keyword argument is given, is left out. *)
Definition given (kw : kwargs) (k : string) : Prop := exists v, In (k, v) kw.
Definition omitted (kw : kwargs) (k : string) : Prop := forall v, ~ In (k, v) kw.
(** Calls that differ at most in the value of one argument. *)
Definition differ_in (k : string) (kw kw' : kwargs) : Prop :=
  Forall2 (fun a b => fst a = fst b /\ (fst a <> k -> snd a = snd b)) kw kw'.

(** The three ways of gridding: longitude and latitude, the fixed grid in tiles, others. *)
Definition lonlat_grid (kw : kwargs) : Prop := In ("proj_name", KText (lit "latlong")) kw.
Definition fixed_grid (kw : kwargs) : Prop := ~ lonlat_grid kw /\ given kw "fixed_grid".
(** The number of tiles along each axis of a fixed grid. *)
Definition tiles_along (kw : kwargs) (s : nat) : Prop := In ("subdivide", KNat s) kw \/ (omitted kw "subdivide" /\ s = 1%nat).
(** The indices of the tiles; the second one changes fastest. *)
Definition indices (s : nat) : list (nat * nat) := list_prod (seq 0 s) (seq 0 s).

(** A caller cannot pass the dictionaries that are made inside. *)
Definition from_outside (kw : kwargs) : Prop := forall k r, In (k, KDict r) kw -> r = Caller.
(** Nothing has been called yet. *)
Definition fresh (st : state) : Prop := st_heap st Default = [].
(** The file under a path. *)
Definition present (st : state) (p : pystr) : Prop := exists f, lookup (st_fs st) (norm p) = Some f.
(** A gridder with only the first [m] of its frames. *)
Definition first_frames (m : nat) (gd : gridder) : gridder :=
  mkGridder (gd_xedge gd) (gd_yedge gd) (firstn (S m) (gd_tedges gd)) (gd_names gd) (gd_divide gd) (gd_platform gd).
(** The arguments without which there is no call (besides those of the constructor). *)
Inductive required (kw : kwargs) : string -> Prop :=
| R_always : forall k, In k ["proj_name"; "ellipse_rev"; "clip_events"] -> required kw k
| R_lonlat : forall k, lonlat_grid kw -> In k ["x_bnd"; "y_bnd"] -> required kw k
| R_fixed : forall k, fixed_grid kw -> In k ["x_bnd"; "y_bnd"; "dx"; "dy"; "nadir_lon"; "output_filename_prefix"; "output_writer"] -> required kw k.

(** From the files of [fs] to those of [fs'] by successful calls of write_goes_imagery only,
    one for each number in [ms]: that many of the first frames of a gridder were
    written. *)
Inductive whole_files (prepare : kwargs -> kval -> kwargs -> res prepared) (sc : scenes) (resolutions : list (string * Q)) (stamp : Q -> datetime)
  : list nat -> fsys -> fsys -> Prop :=
| W_none : forall fs fs', fs_files fs' = fs_files fs -> whole_files prepare sc resolutions stamp [] fs fs'
| W_tile : forall ms m fs fs1 fs2 fs' a r b p xs ys scaled slot instrument outpath nows g paths,
    whole_files prepare sc resolutions stamp ms fs fs1 ->
    prepare a r b = Ok p -> (m <= List.length (gd_tedges (pr_gd p)) - 1)%nat -> ((0 < m)%nat -> pr_attrs p = Some (slot, instrument)) ->
    write_imagery (first_frames m (pr_gd p)) xs ys scaled sc resolutions slot instrument outpath stamp nows (pr_grids p) fs1 = Ok (g, fs2, paths) ->
    fs_files fs' = fs_files fs2 ->
    whole_files prepare sc resolutions stamp (ms ++ [m]) fs fs'.

(** What processing leaves can be written: at least two columns and a row besides the
    margins of [px] and [py] cells, and arrays of the shape of the gridder. *)
Definition writable (px py : nat) (p : prepared) : Prop :=
  let gd := pr_gd p in
  pr_attrs p <> None /\ simple_divide (gd_divide gd) /\ List.length (gd_names gd) = List.length (pr_grids p) /\ ~ In "/"%char (gd_platform gd) /\
  exists mx my, (2 <= mx)%nat /\ (1 <= my)%nat /\ List.length (gd_xedge gd) = S (mx + 2 * px) /\ List.length (gd_yedge gd) = S (my + 2 * py) /\
    shaped (pr_grids p) (mx + 2 * px) (my + 2 * py) (List.length (gd_tedges gd) - 1).
(** No directory is in the way of output in the working directory. *)
Definition clear (fs : fsys) : Prop :=
  (forall f, lookup fs (false, []) <> Some f) /\ forall n, ~ In (false, [lit "OR_GLM-L2-GLM" ++ n]) (fs_dirs fs).

(** The numbers that a value stands for. *)
Definition is_number (v : kval) (q : Q) : Prop := v = KNum q \/ exists n, v = KNat n /\ q = inject_Z (Z.of_nat n).
(** Names that are not handed to the gridder under the same name and value. *)
Definition not_for_grid : list string :=
  ["min_points_per_flash"; "min_groups_per_flash"; "clip_events"; "fixed_grid"; "nadir_lon"; "corner_pickle"; "ellipse_rev";
   "outpath"; "output_writer"; "output_writer_3d"; "output_kwargs"; "output_filename_prefix"; "subdivide"].
(** What a call with arguments [kw] may ask of a gridder (made with [a]) and of the data
    (processed with ellipsoid [r] and options [b]): every argument by its name, with the
    value given; for longitude and latitude, the flashes between the bounds of the grid; for
    tiles, their bounds both of the grid and of the flashes. *)
Record asked (kw a : kwargs) (r : kval) (b : kwargs) : Prop :=
  { asked_ellipsoid : In ("ellipse_rev", r) kw;
    asked_grid : forall k v, ~ In k (["x_bnd"; "y_bnd"; "do_3d"; "event_grid_area_fraction_key"] ++ not_for_grid) -> (In (k, v) a <-> In (k, v) kw);
    asked_grid_not : forall k, In k not_for_grid -> omitted a k;
    asked_fraction : In ("event_grid_area_fraction_key", KText (lit "mesh_frac")) a;
    asked_2d : In ("do_3d", KBool false) a;
    asked_options : forall k v, In k ["min_points_per_flash"; "min_groups_per_flash"; "fixed_grid"; "nadir_lon"; "corner_pickle"] -> (In (k, v) b <-> In (k, v) kw);
    asked_clip : given kw "clip_events" /\ In ("clip_events", KMesh) b;
    asked_other : forall k, ~ In k (["x_bnd"; "y_bnd"; "lon_bnd"; "lat_bnd"; "clip_events"; "min_points_per_flash"; "min_groups_per_flash"; "fixed_grid"; "nadir_lon"; "corner_pickle"]) -> omitted b k;
    asked_lonlat : lonlat_grid kw -> omitted b "x_bnd" /\ omitted b "y_bnd" /\ exists xb yb, In ("x_bnd", xb) kw /\ In ("y_bnd", yb) kw /\ In ("x_bnd", xb) a /\ In ("y_bnd", yb) a /\ In ("lon_bnd", xb) b /\ In ("lat_bnd", yb) b;
    asked_fixed : fixed_grid kw -> In ("lon_bnd", KNone) b /\ In ("lat_bnd", KNone) b /\
      exists xb yb vx vy dx dy s ts t, In ("x_bnd", KRange xb) kw /\ In ("y_bnd", KRange yb) kw /\ In ("dx", vx) kw /\ In ("dy", vy) kw /\ is_number vx dx /\ is_number vy dy /\
        tiles_along kw s /\ subdivided_fixed_grid xb yb dx dy s = Ok ts /\ In t ts /\
        In ("x_bnd", KRange (t_xbnd t)) a /\ In ("y_bnd", KRange (t_ybnd t)) a /\ In ("x_bnd", KRange (t_xbnd t)) b /\ In ("y_bnd", KRange (t_ybnd t)) b;
    asked_plain : ~ lonlat_grid kw -> ~ fixed_grid kw -> omitted b "x_bnd" /\ omitted b "y_bnd" /\ In ("lon_bnd", KNone) b /\ In ("lat_bnd", KNone) b /\
      forall k v, In k ["x_bnd"; "y_bnd"] -> (In (k, v) a <-> In (k, v) kw) }.
