(** Model of the subdivision of a fixed grid into tiles and of the writing of all tiles:
    glmtools/grid/make_grids.py 599-609 (GLMlutGridder.write_grids), 612-637
    (subdivide_bnd), 639-708 (subdivided_fixed_grid), 710-757 (GridOutputPreprocess),
    792-842 and 846-938 (the loop over tiles of grid_GLM_flashes and proc_each_grid).
    Numbers are exact. *)
From Coq Require Import List ZArith QArith Qround Bool String.
From Verif Require Import Base Glm Lut FileName Imagery.
Import ListNotations.
Open Scope Z_scope.

(** Python's [int(q)]: towards zero (make_grids.py 612-680). *)
Definition qint (q : Q) : Z := if Qlt_bool q 0 then Qceiling q else Qfloor q.

(** make_grids.py 612-637 *)
Definition subdivide_bnd (bnd : Q * Q) (delta : Q) (s : nat) : res (list Q) :=
  let w := (snd bnd - fst bnd)%Q in
  if Qeq_bool delta 0 then Err ZeroDivisionError else
  let n := qint (w / delta) in
  match s with
  | O => Err ZeroDivisionError
  | S s' =>
      let dn := qint (inject_Z n / inject_Z (Z.of_nat s)) in
      Ok (map (fun k => (inject_Z (Z.of_nat k) * delta * inject_Z dn + fst bnd)%Q) (seq 0 s) ++ [snd bnd])
  end.

(** One element of subdivided_fixed_grid: indices, bounds with padding (of the grid and,
    the same, of the selection of flashes), number of cells of padding. *)
Record tile := mkTile { t_i : nat; t_j : nat; t_xbnd : Q * Q; t_ybnd : Q * Q; t_npx : Z; t_npy : Z }.
(** make_grids.py 640: 100*28.0e-6 *)
Definition default_pad : Q := (28 # 10000)%Q.
(** make_grids.py 671-680: the bounds of a tile with its padding. *)
Definition padded (edges : list Q) (i : nat) (pad : Q) : Q * Q := (nth i edges 0 - pad, nth (S i) edges 0 + pad)%Q.
(** make_grids.py 639-708 *)
Definition subdivided_fixed_grid (x_bnd y_bnd : Q * Q) (dx dy : Q) (s : nat) : res (list tile) :=
  if (Qeq_bool dx 0 || Qeq_bool dy 0)%bool then Err ZeroDivisionError else
  let nx := qint (default_pad / dx) in let ny := qint (default_pad / dy) in
  let x_pad := (inject_Z nx * dx)%Q in let y_pad := (inject_Z ny * dy)%Q in
  xs <- subdivide_bnd x_bnd dx s ;;
  ys <- subdivide_bnd y_bnd dy s ;;
  Ok (map (fun ij => mkTile (fst ij) (snd ij) (padded xs (fst ij) x_pad) (padded ys (snd ij) y_pad) nx ny)
          (list_prod (seq 0 s) (seq 0 s))).
(** lmatools FlashGridder: [np.arange(bnd[0], bnd[1]+d, d)], the edges of the grid. *)
Definition grid_edges (bnd : Q * Q) (d : Q) : list Q :=
  map (fun k => (fst bnd + inject_Z (Z.of_nat k) * d)%Q) (seq 0 (Z.to_nat (Qceiling ((snd bnd + d - fst bnd) / d)))).

(** * GridOutputPreprocess *)
(** 726-736: get_pad_slices is [pad_slice] on each axis.  738-749: capture_write_call on
    the coordinates and the grid, a list over x of lists over y. *)
Definition capture {A B} (npx npy : Z) (x y : list A) (grid : list (list B)) : list A * list A * list (list B) :=
  (slice_list (pad_slice npx) x, slice_list (pad_slice npy) y, map (slice_list (pad_slice npy)) (slice_list (pad_slice npx) grid)).

(** * Options *)
(** The dictionary output_kwargs: one object that all tiles share, because
    out_kwargs.copy() (line 697) copies only the outer dictionary. *)
Inductive optval := OBool (b : bool) | OPad (xs ys : pyslice) | OOther (n : Z).
(** A Python dictionary with text keys, in insertion order. *)
Definition dict := list (string * optval).
(** [d[k]] if present. *)
Definition dict_get (k : string) (d : dict) : option optval :=
  match find (fun p => String.eqb (fst p) k) d with Some p => Some (snd p) | None => None end.
(** [d.pop(k, None)] (make_grids.py 603-604). *)
Definition dict_del (k : string) (d : dict) : dict := filter (fun p => negb (String.eqb (fst p) k)) d.
(** [d[k] = v] (make_grids.py 917-920); the order of keys plays no role. *)
Definition dict_set (k : string) (v : optval) (d : dict) : dict := dict_del k d ++ [(k, v)].
(** [if scale_and_offset:] *)
Definition truth (v : optval) : bool := match v with OBool b => b | OPad _ _ => true | OOther n => negb (n =? 0) end.

(** * The loop over tiles *)
(** Content of the output directory: path and file, the last one written to a path. *)
Definition files := list (pystr * outfile).
(** The file at a path. *)
Definition file_at (fs : files) (path : pystr) : option outfile :=
  match find (fun p => if list_eq_dec Ascii.ascii_dec (fst p) path then true else false) fs with Some p => Some (snd p) | None => None end.
(** [to_netcdf] of imagery.py 566-567 with the default outpath: replaces what is at the
    path. *)
Definition file_put (fs : files) (f : outfile) : files := (lit "./" ++ of_name f, f) :: fs.

Section Run.
(** The gridder made for a tile, what processing the files of lightning data leaves in
    its arrays, and the clock when each frame of the tile is written. *)
Variable gridder_of : tile -> gridder.
Variable gridded : tile -> list array3.
Variable sc : scenes.
Variable stamp : Q -> datetime.
Variable clock : tile -> nat -> datetime.
(** make_grids.py 599-609, default outpath './{dataset_name}'.  The result: the dictionary afterwards,
    whether the output was scaled, and the files. *)
Definition write_grids (t : tile) (opts : dict) : res (dict * bool * list outfile) :=
  let pad := dict_get "pad" opts in let opts1 := dict_del "pad" opts in
  let scaled := match dict_get "scale_and_offset" opts1 with Some v => truth v | None => true end in
  let opts2 := dict_del "scale_and_offset" opts1 in
  slices <- match pad with
            | None => Ok (slice_all, slice_all)
            | Some (OPad xs ys) => Ok (xs, ys)
            | Some _ => Err TypeError
            end ;;
  r <- write_goes_imagery (gridder_of t) (fst slices) (snd slices) scaled sc stamp (clock t) (gridded t) ;;
  Ok (opts2, scaled, snd r).
(** make_grids.py 915-922 for one tile.  Without output_kwargs in the arguments of the call the tile gets
    a dictionary of its own. *)
Definition proc_tile (t : tile) (shared : option dict) : res (option dict * bool * list outfile) :=
  let opts := match shared with Some d => d | None => [] end in
  let opts1 := dict_set "pad" (OPad (pad_slice (t_npx t)) (pad_slice (t_npy t))) opts in
  r <- write_grids t opts1 ;;
  Ok (match shared with Some _ => Some (fst (fst r)) | None => None end, snd (fst r), snd r).
(** make_grids.py 838: all tiles in turn; for each tile how it was written, and the directory. *)
Fixpoint run (ts : list tile) (shared : option dict) (fs : files) : res (list (tile * bool * list outfile) * files) :=
  match ts with
  | [] => Ok ([], fs)
  | t :: rest =>
      r <- proc_tile t shared ;;
      let fs' := fold_left file_put (snd r) fs in
      q <- run rest (fst (fst r)) fs' ;;
      Ok ((t, snd (fst r), snd r) :: fst q, snd q)
  end.
End Run.
