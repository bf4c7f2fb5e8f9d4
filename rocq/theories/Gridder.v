(** Model of the gridder classes and of the processing of one grid or tile
    (glmtools/grid/make_grids.py 76-574, 846-938; glmtools/io/mimic_lma.py 225-240,
    808-971): the pipelines that are set up, the routing of the data of every file to
    time frames, and the arrays handed to the writer. *)
From Coq Require Import List ZArith QArith Qabs Bool String.
From Verif Require Import Base Traversal Glm Lut Accum Poly BBox Slice Regroup Pipeline FileName Imagery.
Import ListNotations.
Open Scope Z_scope.

Local Notation tbl := (table obs).

(** * Pipelines *)
(** What a target grid accumulates: a column of the split lookup table rows, by sum or by
    minimum (accumulate_var_on_grid_direct_idx, accumulate_minvar_on_grid_direct_idx), the
    positions of flashes or of groups (no_projection, point_density,
    accumulate_points_on_grid), or something done in lmatools on the un-split data, which
    is not modelled. *)
Inductive level := Flashes | Groups.
(** What is accumulated on a grid (make_grids.py 82-211, 406-574). *)
Inductive feed := Sum (column : string) | Min (column : string) | Points (of : level) | Elsewhere.
(** The two classes of make_grids.py; which is used: 874-877. *)
Inductive gridder_class := GLMGridder | GLMlutGridder.

(** make_grids.py 82-153 (GLMGridder), 459-518 (GLMlutGridder): the grids returned by
    flash_pipeline_setup, in the order of the tuple [outgrids]. *)
Definition flash_pipeline_setup (c : gridder_class) : list feed :=
  match c with
  | GLMGridder => [Elsewhere; Elsewhere; Elsewhere]
  | GLMlutGridder => [Points Flashes; Sum "lutevent_flash_count"; Sum "lutevent_total_flash_area"; Min "lutevent_min_flash_area"]
  end%string.
(** make_grids.py 76-80 (GLMGridder), 520-574 (GLMlutGridder) *)
Definition group_pipeline_setup (c : gridder_class) : list feed :=
  match c with
  | GLMGridder => flash_pipeline_setup c
  | GLMlutGridder => [Points Groups; Sum "lutevent_group_count"; Sum "lutevent_total_group_area"]
  end%string.
(** make_grids.py 155-211 (GLMGridder), 406-457 (GLMlutGridder) *)
Definition event_pipeline_setup (c : gridder_class) : list feed :=
  match c with GLMGridder => [Elsewhere] | GLMlutGridder => [Sum "power"] end%string.
(** make_grids.py 213-271: [outgrids]; unpacking a tuple of the wrong length raises. *)
Definition pipeline_setup (c : gridder_class) : res (list feed) :=
  match flash_pipeline_setup c with
  | [init_density_grid; extent_density_grid; footprint_grid; min_flash_area_grid] =>
      match group_pipeline_setup c with
      | [group_centroid_density_grid; group_extent_density_grid; group_footprint_grid] =>
          match event_pipeline_setup c with
          | [total_energy_grid] =>
              Ok [extent_density_grid; init_density_grid; footprint_grid; total_energy_grid;
                  group_extent_density_grid; group_centroid_density_grid; group_footprint_grid; min_flash_area_grid]
          | _ => Err ValueError
          end
      | _ => Err ValueError
      end
  | _ => Err ValueError
  end.

(** mimic_lma.py 809-821, 872-886: the numerical columns of the rows sent; a name that is
    not there raises (numpy: no field of that name). *)
Definition column (name : string) : res (cellrow -> fval) :=
  if String.eqb name "power" then Ok ce_power
  else if String.eqb name "lutevent_flash_count" then Ok ce_fcount
  else if String.eqb name "lutevent_group_count" then Ok ce_gcount
  else if String.eqb name "lutevent_total_flash_area" then Ok ce_farea
  else if String.eqb name "lutevent_total_group_area" then Ok ce_garea
  else if String.eqb name "lutevent_min_flash_area" then Ok ce_minarea
  else Err ValueError.

(** * Data *)
(** mimic_lma.py 891-936: a flash or a group as a point in x, y and time (flash
    'start' is the time of its first event). *)
Record point := mkPoint { p_x : fval; p_y : fval; p_t : Q }.
(** An opened file.  Times are in seconds since the reference time of the gridder
    (sec_since_basedate); those of flashes, groups and events are given by their id (ids
    are taken to be unique within a file).  Those of events (event_time_offset) are in the
    file but are not used on this path. *)
Record glmfile := mkFile
  { f_ds : list tbl; f_time : Q; f_fstart : Z -> Q; f_gtime : Z -> Q; f_etime : Z -> Q; f_platform : pystr }.
(** What fast_fixed_grid_read_chunk sends for a chunk (mimic_lma.py 225-240): the rows go
    to all three pipelines, together with the flashes, the groups, or nothing else.  All
    rows have as 'time' the product time of the file (glm.py 627-707, mimic_lma.py
    875-876). *)
Record batch := mkBatch { b_time : Q; b_rows : list cellrow; b_flashes : list point; b_groups : list point }.
(** mimic_lma.py 891-936: the points of a table of flashes or groups; an absent table
    has none. *)
Definition points_of (times : Z -> Q) (t : option tbl) : list point :=
  match t with
  | Some rows => map (fun r => mkPoint (o_x (rdat r)) (o_y (rdat r)) (times (rid r))) rows
  | None => []
  end.

Section Gridder.
Variable set_order : list Z -> list Z.
Variable weird : fval -> Z.
Variable clip : poly -> poly -> list poly.
Variable tree : Q * Q -> list (Z * Z).
Variable quad : fval -> fval -> poly.
Variables (xedge yedge tedges : list Q).
Let m := mkMesh (meshgrid_x xedge yedge) (meshgrid_y xedge yedge) true.
Let nx := Z.of_nat (List.length xedge) - 1.
Let ny := Z.of_nat (List.length yedge) - 1.

(** make_grids.py 890-912 and mimic_lma.py 67-113 for one file. *)
Definition read_batches (chunk_size : nat) (q : option query) (f : glmfile) : res (list batch) :=
  match nth_error (f_ds f) 2 with
  | Some [] => Ok []
  | Some _ =>
      chunks <- flash_chunks set_order chunk_size (f_ds f) q ;;
      map_res (fun c => rows <- read_chunk weird clip tree quad m c ;;
                 Ok (mkBatch (f_time f) rows (points_of (f_fstart f) (nth_error c 0)) (points_of (f_gtime f) (nth_error c 1)))) chunks
  | None => Err AttributeError
  end.

(** * Frames *)
(** lmatools flashes_to_frames: times are sorted, the positions of the edges among them
    are found with searchsorted (side left), and frame [t] gets what is between positions
    t and t + 1. *)
Definition in_frame (t : nat) (v : Q) : bool :=
  match nth_error tedges t, nth_error tedges (S t) with
  | Some a, Some b => (Qle_bool a v && Qlt_bool v b)%bool
  | _, _ => false
  end.
(** numpy histogramdd: bin [k] between edges, open at its end unless it is the last. *)
Definition in_bin (edges : list Q) (k : Z) (v : fval) : bool :=
  match v, nth_error edges (Z.to_nat k), nth_error edges (S (Z.to_nat k)) with
  | Some v, Some a, Some b =>
      (Qle_bool a v && (Qlt_bool v b || (Nat.eqb (S (S (Z.to_nat k))) (List.length edges) && Qle_bool v b)))%bool
  | _, _, _ => false
  end.
(** The points of a batch at a level (mimic_lma.py 234-235). *)
Definition points_at (l : level) (b : batch) : list point := match l with Flashes => b_flashes b | Groups => b_groups b end.
(** The grid of one frame, [grid[:,:,t]], when all batches have been sent. *)
Definition frame_rows (t : nat) (b : batch) : list cellrow := if in_frame t (b_time b) then b_rows b else [].
(** The grid of a frame after all batches (make_grids.py 406-574, accumulate.py). *)
Definition frame_grid (bs : list batch) (fd : feed) (t : nat) : res grid :=
  match fd with
  | Sum name => col <- column name ;;
      accumulate (zeros nx ny) (select_dataset true (map (fun b => (items col (frame_rows t b), [])) bs))
  | Min name => col <- column name ;;
      accumulate_min (zeros nx ny) (select_dataset true (map (fun b => (items col (frame_rows t b), [])) bs))
  | Points l =>
      let ps := filter (fun p => in_frame t (p_t p)) (flat_map (points_at l) bs) in
      Ok (mkGrid nx ny (fun a b => Some (inject_Z (Z.of_nat (List.length
            (filter (fun p => in_bin xedge a (p_x p) && in_bin yedge b (p_y p))%bool ps))))))
  | Elsewhere => Err ValueError
  end.
(** Number of frames between the time edges. *)
Definition n_frames : nat := (List.length tedges - 1)%nat.
(** All frames of a grid, [grid[:,:,t]] (make_grids.py 213-271). *)
Definition frames (bs : list batch) (fd : feed) : res array3 :=
  gs <- map_res (frame_grid bs fd) (seq 0 n_frames) ;;
  Ok (mkArr (Z.to_nat nx) (Z.to_nat ny) n_frames (fun x y t => g_at (nth t gs (zeros nx ny)) (Z.of_nat x) (Z.of_nat y))).

(** make_grids.py 874-912: the gridder is made (lmatools calls pipeline_setup in the
    constructor) and all files are processed.  [clip_events] says whether that keyword was
    given.  The second component is [first_file_attrs], if it was set. *)
Definition has_events (f : glmfile) : bool := match nth_error (f_ds f) 2 with Some (_ :: _) => true | _ => false end.
(** make_grids.py 874-912, see above. *)
Definition process_files (clip_events : bool) (chunk_size : nat) (q : option query) (files : list glmfile)
  : res (list array3 * option pystr) :=
  feeds <- pipeline_setup (if clip_events then GLMlutGridder else GLMGridder) ;;
  bss <- map_res (read_batches chunk_size q) files ;;
  outgrids <- map_res (frames (List.concat bss)) feeds ;;
  Ok (outgrids, option_map f_platform (find has_events files)).

(** make_grids.py 846-938 with write_grids of 599-609: proc_each_grid in the fixed grid.
    [rev]: whether the keyword 'ellipse_rev' was given (it is popped without default).
    A missing first_file_attrs is noticed when the first frame is written
    (imagery.py 507-511). *)
Definition proc_each_grid (rev clip_events : bool) (chunk_size : nat) (q : option query) (xs ys : pyslice) (scaled : bool)
    (sc : scenes) (stamp : Q -> datetime) (nows : nat -> datetime) (files : list glmfile) : res (list outfile) :=
  if negb rev then Err KeyError else
  op <- process_files clip_events chunk_size q files ;;
  let gd p := mkGridder xedge yedge tedges lut_names lut_divide p in
  match snd op with
  | Some p => r <- write_goes_imagery (gd p) xs ys scaled sc stamp nows (fst op) ;; Ok (snd r)
  | None =>
      if Nat.leb (List.length tedges) 1 then Ok [] else
      _ <- infer_scene sc (slice_list xs (centers xedge)) (List.rev (slice_list ys (centers yedge))) ;; Err AttributeError
  end.
End Gridder.
