(** Model of how a run of examples/grid/make_GLM_grids.py gets its time frames: the window of
    grid_setup (make_GLM_grids.py 186-201, in GridSetup.v) is given with [frame_interval]
    (299) to the gridder, whose constructor in lmatools makes the edges [t_edges] that
    glmtools/grid/make_grids.py uses (146, 206, 452, 512, 568) with lmatools.grid.make_grids.time_edges.
    Numbers are exact. *)
From Coq Require Import List ZArith QArith Qround Bool.
From Verif Require Import Base Glm FileName Imagery GridSetup.
Import ListNotations.
Open Scope Z_scope.

(** Microseconds of a datetime since the start of year 1 (datetime.toordinal; days before a
    year as in the datetime module), for the differences and sums with a timedelta in
    make_GLM_grids.py 201 and in lmatools time_edges. *)
Definition microseconds (d : datetime) : Z :=
  let y := dt_year d - 1 in
  let days := y * 365 + y / 4 - y / 100 + y / 400 + dt_yday d - 1 in
  ((days * 24 + dt_hour d) * 60 + dt_min d) * 60000000 + dt_sec d * 1000000 + dt_us d.
(** [timedelta(0, dt)] (lmatools time_edges, with make_GLM_grids.py 299 frame_interval=float(args.dt)):
    whole microseconds, halves to even. *)
Definition frame_length (dt : Q) : Z := round_even (dt * 1000000).
(** lmatools time_edges, called for glmtools/grid/make_grids.py 878-880: as many frames as are needed to reach the end,
    [n_frames = int(ceil(duration / frame))], and the edges [start + i*frame for i in range(n_frames + 1)]. *)
Definition time_edges (start end_ frame : Z) : res (list Z) :=
  if frame =? 0 then Err ZeroDivisionError else
  let n := - ((start - end_) / frame) in
  Ok (map (fun i => start + Z.of_nat i * frame) (seq 0 (Z.to_nat (n + 1)))).
(** The edges in seconds, as used with [during] in Gridder.v (make_grids.py 146, 452: time_edges_datetime). *)
Definition in_seconds (us : Z) : Q := inject_Z us / 1000000.
(** make_GLM_grids.py 186-201 and 299: the edges of a run with the given files, --start, --end and --dt. *)
Definition run_edges (paths : list pystr) (start end_ : option pystr) (dt : Q) : res (list Q) :=
  w <- time_window paths start end_ ;;
  e <- time_edges (microseconds (fst w)) (microseconds (snd w)) (frame_length dt) ;;
  Ok (map in_seconds e).
