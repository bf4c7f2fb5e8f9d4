(** Model of the handling of keyword arguments and of the results of grid_GLM_flashes
    (glmtools/grid/make_grids.py 761-842), proc_each_grid (846-938), subdivided_fixed_grid
    (639-708), GridOutputPreprocess (710-757) and GLMlutGridder.write_grids (599-609), over
    any history of calls.  The dictionary objects that calls may share are kept in a heap.
    Making the gridder and processing the lightning data is a parameter (it is modelled in
    Gridder.v); writing is that of Output.v. *)
From Coq Require Import List ZArith QArith Qround Bool String.
From Verif Require Import Base Glm Lut FileName Imagery Aggregate Output Tiles Gridder.
Import ListNotations.
Open Scope string_scope.
Open Scope list_scope.

(** * Keyword arguments *)
(** The dictionaries that may be given as output_kwargs: the one the caller passed, the
    default of write_grids (599-601; made once, when the class is defined), and the one made
    for a tile (917-918). *)
Inductive ref := Caller | Default | Fresh.
(** Values of keyword arguments: text, number, pair of numbers, bool, natural number, None,
    dictionary, template of a path, the mesh of 881, the capture_write_call of 704, and
    other objects.  Arrays of two bounds are pairs. *)
Inductive kval :=
| KText (s : pystr) | KNum (q : Q) | KRange (r : Q * Q) | KBool (b : bool) | KNat (n : nat) | KNone
| KDict (r : ref) | KPath (p : list piece) | KMesh | KCapture | KObj (n : Z).
(** A dictionary of keyword arguments. *)
Definition kwargs := list (string * kval).
(** [d[k]] if present. *)
Definition kget (k : string) (d : kwargs) : option kval :=
  match find (fun p => String.eqb (fst p) k) d with Some p => Some (snd p) | None => None end.
(** [k in d]. *)
Definition khas (k : string) (d : kwargs) : bool := match kget k d with Some _ => true | None => false end.
(** The dictionary after [d.pop(k)]. *)
Definition kdel (k : string) (d : kwargs) : kwargs := filter (fun p => negb (String.eqb (fst p) k)) d.
(** [d[k] = v]; the order of keys plays no role. *)
Definition kset (k : string) (v : kval) (d : kwargs) : kwargs := kdel k d ++ [(k, v)].
(** [d[k]]. *)
Definition need (k : string) (d : kwargs) : res kval := match kget k d with Some v => Ok v | None => Err KeyError end.
(** make_grids.py 797-803 and 808-812: the named keys that are present are moved to a
    dictionary of their own, the second component. *)
Fixpoint move (names : list string) (from into : kwargs) : kwargs * kwargs :=
  match names with
  | [] => (from, into)
  | k :: rest => match kget k from with
                 | Some v => move rest (kdel k from) (kset k v into)
                 | None => move rest from into
                 end
  end.
(** make_grids.py 798-800 *)
Definition process_keys : list string :=
  ["min_points_per_flash"; "min_groups_per_flash"; "clip_events"; "fixed_grid"; "nadir_lon"; "corner_pickle"; "ellipse_rev"].
(** make_grids.py 809-810 *)
Definition output_keys : list string :=
  ["outpath"; "output_writer"; "output_writer_3d"; "output_kwargs"; "output_filename_prefix"].
(** Arithmetic on a value: a number; others raise (make_grids.py 655-656; a bool would do as
    a number in Python, which is left out). *)
Definition number (v : kval) : res Q := match v with KNum q => Ok q | KNat n => Ok (inject_Z (Z.of_nat n)) | _ => Err TypeError end.
(** Indexing and subtracting bounds (make_grids.py 628). *)
Definition bounds (v : kval) : res (Q * Q) := match v with KRange r => Ok r | _ => Err TypeError end.
(** [outfile_prefix_base + '-'] (make_grids.py 695). *)
Definition text (v : kval) : res pystr := match v with KText s => Ok s | _ => Err TypeError end.
(** [range(s)] (make_grids.py 668); negative numbers are not modelled. *)
Definition natural (v : kval) : res nat := match v with KNat n => Ok n | _ => Err TypeError end.

(** * Tiles *)
(** What is processed at a time: index, arguments of the gridder, of process_flashes and of
    write_grids, and preprocess_out (its padding in cells, its writer) if there is one. *)
Record subgrid := mkSub
  { sg_ij : nat * nat; sg_kw : kwargs; sg_proc : kwargs; sg_out : kwargs; sg_pre : option (Z * Z * kval) }.
(** ['{0:02d}-{1:02d}'.format(i, j)] (make_grids.py 696), for indices below 100. *)
Definition tile_suffix (i j : nat) : pystr := lit "-" ++ pad 2 (Z.of_nat i) ++ lit "-" ++ pad 2 (Z.of_nat j).
(** make_grids.py 639-708; the generator is exhausted at once, because what it raises it
    raises before the first tile. *)
Definition fixed_subgrids (kw proc out : kwargs) (s : nat) : res (list subgrid) :=
  dx <- (v <- need "dx" kw ;; number v) ;;
  _ <- (if Qeq_bool dx 0 then Err ZeroDivisionError else Ok tt) ;;
  dy <- (v <- need "dy" kw ;; number v) ;;
  _ <- (if Qeq_bool dy 0 then Err ZeroDivisionError else Ok tt) ;;
  xb <- (v <- need "x_bnd" kw ;; bounds v) ;;
  _ <- subdivide_bnd xb dx s ;;
  yb <- (v <- need "y_bnd" kw ;; bounds v) ;;
  ts <- subdivided_fixed_grid xb yb dx dy s ;;
  _ <- need "nadir_lon" proc ;;
  map_res (fun t =>
    prefix <- (v <- need "output_filename_prefix" out ;; text v) ;;
    writer <- need "output_writer" out ;;
    let bnds d := kset "y_bnd" (KRange (t_ybnd t)) (kset "x_bnd" (KRange (t_xbnd t)) d) in
    Ok (mkSub (t_i t, t_j t) (bnds kw) (kset "lat_bnd" KNone (kset "lon_bnd" KNone (bnds proc)))
          (kset "output_writer" KCapture (kset "output_filename_prefix" (KText (prefix ++ tile_suffix (t_i t) (t_j t))) out))
          (Some (t_npx t, t_npy t, writer)))) ts.
(** make_grids.py 792-827 *)
Definition subgrids (kw0 : kwargs) : res (list subgrid) :=
  let kw1 := kset "do_3d" (KBool false) kw0 in
  let subdivide := match kget "subdivide" kw1 with Some v => v | None => KNat 1 end in
  let kw2 := kdel "subdivide" kw1 in
  let '(kw3, proc) := move process_keys kw2 [] in
  let kw4 := if khas "clip_events" proc then kset "event_grid_area_fraction_key" (KText (lit "mesh_frac")) kw3 else kw3 in
  let '(kw, out) := move output_keys kw4 [] in
  proj <- need "proj_name" kw ;;
  if match proj with KText p => if list_eq_dec Ascii.ascii_dec p (lit "latlong") then true else false | _ => false end then
    xb <- need "x_bnd" kw ;;
    yb <- need "y_bnd" kw ;;
    Ok [mkSub (0, 0)%nat kw (kset "lat_bnd" yb (kset "lon_bnd" xb proc)) out None]
  else if khas "fixed_grid" proc then
    s <- natural subdivide ;;
    fixed_subgrids kw proc out s
  else
    Ok [mkSub (0, 0)%nat kw (kset "lat_bnd" KNone (kset "lon_bnd" KNone proc)) out None].

(** * State *)
(** The contents of the dictionaries and the file system. *)
Record state := mkState { st_heap : ref -> dict; st_fs : fsys }.
(** Two names for the same object. *)
Definition ref_eqb (a b : ref) : bool :=
  match a, b with Caller, Caller | Default, Default | Fresh, Fresh => true | _, _ => false end.
(** A dictionary is changed. *)
Definition store (r : ref) (d : dict) (h : ref -> dict) : ref -> dict := fun r' => if ref_eqb r' r then d else h r'.
(** The outcome of a call with the state it leaves, also when it raises. *)
Definition run (A : Type) := (state * res A)%type.
(** A call after another one; what is raised is passed on. *)
Definition and_then {A B} (r : run A) (f : A -> state -> run B) : run B :=
  match snd r with Ok a => f a (fst r) | Err e => (fst r, Err e) end.
(** A step that does not change the state. *)
Definition pure {A} (r : res A) (st : state) : run A := (st, r).

(** What making the gridder and processing all files leaves: the gridder, its arrays, and
    first_file_attrs (orbital slot and instrument), if it was set. *)
Record prepared := mkPrep { pr_gd : gridder; pr_grids : list array3; pr_attrs : option (pystr * pystr) }.

Section Calls.
(** For the arguments of the constructor, ellipse_rev and the arguments of process_flashes:
    make_grids.py 875, 889-912. *)
Variable prepare : kwargs -> kval -> kwargs -> res prepared.
Variable sc : scenes.
Variable resolutions : list (string * Q).
Variable stamp : Q -> datetime.

(** The file system that the body of the loop of write_goes_imagery (imagery.py 498-568)
    leaves when it raises: the directory may have been made (525-526).  That to_netcdf may
    leave part of a file behind is not modelled. *)
Definition left_by_frame (gd : gridder) (xs ys : pyslice) (slot instrument : pystr) (outpath : list piece) (now : datetime) (fs : fsys) (t0 t1 : Q) : fsys :=
  let x := slice_list xs (centers (gd_xedge gd)) in
  let y := rev (slice_list ys (centers (gd_yedge gd))) in
  match (rtext <- resolution resolutions x ;;
         scene <- infer_scene sc x y ;;
         a <- global_attrs gd slot instrument (stamp t0) (stamp t1) now scene rtext ;;
         let outfile := format_path outpath (stamp t0) (stamp t1) (at_name a) in
         if exists_ fs (dirname outfile) then Ok fs else makedirs fs (dirname outfile)) with
  | Ok fs1 => fs1
  | Err _ => fs
  end.
(** write_goes_imagery (imagery.py 498-569) with the file system it leaves also when it
    raises: the files of the frames before are there. *)
Fixpoint write_frames_to (gd : gridder) (xs ys : pyslice) (scaled : bool) (slot instrument : pystr) (outpath : list piece) (nows : nat -> datetime)
    (grids : list array3) (fs : fsys) (t : nat) (edges : list Q) : fsys * res (list pystr) :=
  match edges with
  | t0 :: ((t1 :: _) as rest) =>
      match write_one gd xs ys scaled sc resolutions slot instrument outpath stamp (nows t) grids fs t t0 t1 with
      | Ok so =>
          let r := write_frames_to gd xs ys scaled slot instrument outpath nows (fst (fst so)) (snd (fst so)) (S t) rest in
          (fst r, res_map (cons (snd so)) (snd r))
      | Err e => (left_by_frame gd xs ys slot instrument outpath (nows t) fs t0 t1, Err e)
      end
  | _ => (fs, Ok [])
  end.

(** GLMlutGridder.write_grids (make_grids.py 599-609).  The result: the paths.  Without
    first_file_attrs the first frame raises (imagery.py 511), before anything is written; a
    text given as outpath is taken to have no braces.  Where several of these raise, it may
    be another of them than in Python. *)
Definition write_grids (nows : nat -> datetime) (p : prepared) (out : kwargs) (st : state) : run (list pystr) :=
  and_then (pure (match kget "output_kwargs" out with None => Ok Default | Some (KDict r) => Ok r | Some _ => Err AttributeError end) st) (fun r st =>
  let d := st_heap st r in
  let pad := dict_get "pad" d in let d1 := dict_del "pad" d in
  let scaled := match dict_get "scale_and_offset" d1 with Some v => truth v | None => true end in
  let st' := mkState (store r (dict_del "scale_and_offset" d1) (st_heap st)) (st_fs st) in
  and_then (pure (match pad with
                  | None => Ok (slice_all, slice_all)
                  | Some (OPad xs ys) => Ok (xs, ys)
                  | Some _ => Err TypeError
                  end) st') (fun slices st' =>
  if Nat.leb (List.length (gd_tedges (pr_gd p))) 1 then (st', Ok []) else
  and_then (pure (match pr_attrs p with Some si => Ok si | None => Err AttributeError end) st') (fun si st' =>
  and_then (pure (match kget "outpath" out with None => Ok default_outpath | Some (KPath l) => Ok l | Some (KText s) => Ok [PText s] | Some _ => Err AttributeError end) st') (fun outpath st' =>
  let w := write_frames_to (pr_gd p) (fst slices) (snd slices) scaled (fst si) (snd si) outpath nows (pr_grids p) (st_fs st') 0 (gd_tedges (pr_gd p)) in
  (mkState (st_heap st') (fst w), snd w))))).

(** GridOutputPreprocess.write_all (make_grids.py 751-757): the file names among the
    arguments of the calls that were captured. *)
Definition write_all (writer : kval) (captured : list pystr) : list pystr :=
  match writer with KNone | KBool false => [] | _ => captured end.

(** make_grids.py 846-938.  GLMlutGridder.write_grids does not call its output_writer, so
    nothing is captured; GLMGridder cannot be made (see pipeline_setup). *)
Definition proc_each_grid (nows : nat -> datetime) (sg : subgrid) (st : state) : run (nat * nat * list pystr) :=
  and_then (pure (need "ellipse_rev" (sg_proc sg)) st) (fun ellipse_rev st =>
  let proc := kdel "ellipse_rev" (sg_proc sg) in
  and_then (pure (pipeline_setup (if khas "clip_events" proc then GLMlutGridder else GLMGridder)) st) (fun _ st =>
  and_then (pure (prepare (sg_kw sg) ellipse_rev (if khas "clip_events" proc then kset "clip_events" KMesh proc else proc)) st) (fun p st =>
  match sg_pre sg with
  | Some (npx, npy, writer) =>
      let '(out, st) := if khas "output_kwargs" (sg_out sg) then (sg_out sg, st)
                        else (kset "output_kwargs" (KDict Fresh) (sg_out sg), mkState (store Fresh [] (st_heap st)) (st_fs st)) in
      and_then (pure (match kget "output_kwargs" out with Some (KDict r) => Ok r | _ => Err TypeError end) st) (fun r st =>
      let st' := mkState (store r (dict_set "pad" (OPad (pad_slice npx) (pad_slice npy)) (st_heap st r)) (st_heap st)) (st_fs st) in
      and_then (write_grids nows p out st') (fun _ st' =>
      (st', Ok (sg_ij sg, write_all writer []))))
  | None =>
      and_then (write_grids nows p (sg_out sg) st) (fun names st' => (st', Ok (sg_ij sg, names)))
  end))).
(** make_grids.py 838: all tiles in turn. *)
Fixpoint proc_all (clock : nat * nat -> nat -> datetime) (sgs : list subgrid) (st : state) : run (list (nat * nat * list pystr)) :=
  match sgs with
  | [] => (st, Ok [])
  | sg :: rest =>
      and_then (proc_each_grid (clock (sg_ij sg)) sg st) (fun r st =>
      and_then (proc_all clock rest st) (fun q st => (st, Ok (r :: q))))
  end.
(** make_grids.py 761-842.  [clock]: when each frame of a tile is written. *)
Definition grid_GLM_flashes (clock : nat * nat -> nat -> datetime) (kw : kwargs) (st : state) : run (list (nat * nat * list pystr)) :=
  and_then (pure (subgrids kw) st) (fun sgs st => proc_all clock sgs st).

(** A program making calls one after the other, going on after what they raise. *)
Fixpoint program (calls : list ((nat * nat -> nat -> datetime) * kwargs)) (st : state) : state * list (res (list (nat * nat * list pystr))) :=
  match calls with
  | [] => (st, [])
  | c :: rest =>
      let r := grid_GLM_flashes (fst c) (snd c) st in
      let q := program rest (fst r) in
      (fst q, snd r :: snd q)
  end.
End Calls.
