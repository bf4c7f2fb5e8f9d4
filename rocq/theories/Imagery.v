(** Model of the writing of gridded imagery: glmtools/io/imagery.py 66-86, 315-361,
    425-569 (glm_scaling, glm_image_to_var, infer_scene_from_dataset, write_goes_imagery)
    and of the packing done by xarray when a variable is stored. *)
From Coq Require Import List ZArith QArith Qabs Qround Bool String.
From Verif Require Import Base Glm Lut FileName.
Import ListNotations.
Open Scope Z_scope.

(** * Arrays and slices *)
(** A Python slice without step (used in make_grids.py 726-749, imagery.py 473-491). *)
Record pyslice := mkSlice { sl_lo : option Z; sl_hi : option Z }.
(** [slice(None)], no padding (make_grids.py 726-736, imagery.py 476). *)
Definition slice_all : pyslice := mkSlice None None.
(** First index and number of elements of [a[s]] for an axis of length [n]. *)
Definition bound (n : nat) (v : Z) : nat :=
  if v <? 0 then Z.to_nat (Z.max (v + Z.of_nat n) 0) else Nat.min (Z.to_nat v) n.
(** Start of [a[s]] (Python's slice.indices). *)
Definition slice_lo (s : pyslice) (n : nat) : nat := match sl_lo s with None => 0%nat | Some v => bound n v end.
(** End of [a[s]] (Python's slice.indices). *)
Definition slice_hi (s : pyslice) (n : nat) : nat := match sl_hi s with None => n | Some v => bound n v end.
(** Number of elements of [a[s]]. *)
Definition slice_len (s : pyslice) (n : nat) : nat := (slice_hi s n - slice_lo s n)%nat.
(** [l[s]] (make_grids.py 745-746, imagery.py 490-491). *)
Definition slice_list {A} (s : pyslice) (l : list A) : list A :=
  firstn (slice_len s (List.length l)) (skipn (slice_lo s (List.length l)) l).

(** A float array with axes x, y, time; entries outside the shape are meaningless. *)
Record array3 := mkArr { a_nx : nat; a_ny : nat; a_nt : nat; a_at : nat -> nat -> nat -> fval }.
(** [v = a[xs, ys, t]] is a view: assignments to its elements change [a].  [i], [j] are
    positions in the view; [h i j] is the new value of the element. *)
Definition view_at (xs ys : pyslice) (t : nat) (a : array3) (i j : nat) : fval :=
  a_at a (slice_lo xs (a_nx a) + i)%nat (slice_lo ys (a_ny a) + j)%nat t.
(** Assignments to the elements of the view (imagery.py 351, 539-540). *)
Definition view_set (xs ys : pyslice) (t : nat) (a : array3) (h : nat -> nat -> fval) : array3 :=
  let x0 := slice_lo xs (a_nx a) in let y0 := slice_lo ys (a_ny a) in
  mkArr (a_nx a) (a_ny a) (a_nt a) (fun x y u =>
    if (Nat.eqb u t && Nat.leb x0 x && Nat.ltb x (x0 + slice_len xs (a_nx a))
        && Nat.leb y0 y && Nat.ltb y (y0 + slice_len ys (a_ny a)))%bool
    then h (x - x0)%nat (y - y0)%nat else a_at a x y u).

(** * glm_image_to_var *)
(** imagery.py 66-86: scale_factor, add_offset.  All entries have dtype uint16. *)
Definition glm_scaling (name : string) : option (Q * Q) :=
  if String.eqb name "flash_extent_density" then Some (1 # 16, 0)%Q
  else if String.eqb name "flash_centroid_density" then Some (1 # 1, 0)%Q
  else if String.eqb name "average_flash_area" then Some (10 # 1, 0)%Q
  else if String.eqb name "minimum_flash_area" then Some (10 # 1, 0)%Q
  else if String.eqb name "event_density" then Some (1 # 4, 0)%Q
  else if String.eqb name "group_extent_density" then Some (1 # 4, 0)%Q
  else if String.eqb name "group_centroid_density" then Some (1 # 1, 0)%Q
  else if String.eqb name "average_group_area" then Some (1 # 1, 0)%Q
  else if String.eqb name "total_energy" then Some (152597 # 100000000000, 0)%Q
  else None.
(** imagery.py 346-351: what happens to one element.  Comparisons with NaN are false. *)
Definition raise_tiny (scaling : option (Q * Q)) (v : fval) : fval :=
  match scaling, v with
  | Some (scale, off), Some q =>
      if (Qlt_bool 0 q && Qle_bool q (scale + off))%bool then Some (scale + off)%Q else v
  | _, _ => v
  end.

(** * Storing a variable (xarray: CFScaleOffsetCoder, CFMaskCoder, UnsignedIntegerCoder
    and their inverses on reading), with _FillValue 0 and, when scaled, int16 with
    _Unsigned = true.  Conversion to int16 keeps the low 16 bits. *)
Definition round_even (q : Q) : Z :=
  let f := Qfloor q in let r := (q - inject_Z f)%Q in
  if Qlt_bool r (1 # 2) then f else if Qlt_bool (1 # 2) r then f + 1
  else if Z.even f then f else f + 1.
(** The code stored for a value (encoding set in imagery.py 335-360). *)
Definition pack (sc : Q * Q) (v : fval) : Z :=
  match v with
  | Some q => (round_even ((q - snd sc) / fst sc)) mod 65536
  | None => 0
  end.
(** The value read for a code. *)
Definition unpack (sc : Q * Q) (code : Z) : fval :=
  if code =? 0 then None else Some (inject_Z code * fst sc + snd sc)%Q.
(** What a reader of the file gets for an element. *)
Definition stored (scaling : option (Q * Q)) (v : fval) : fval :=
  match scaling with
  | Some sc => unpack sc (pack sc v)
  | None => match v with Some q => if Qeq_bool q 0 then None else Some q | None => None end
  end.

(** * infer_scene_from_dataset *)
(** The numbers of lmatools.grid.fixed that are used, as pairs spanEW, spanNS. *)
Record scenes := mkScenes { sc_full : Q * Q; sc_conus : Q * Q; sc_meso : Q * Q }.
(** [np.allclose(a, b, rtol=1.0e-2)]; numpy's atol is 1e-8. *)
Definition allclose (a b : Q) : bool := Qle_bool (Qabs (a - b)) ((1 # 100000000) + (1 # 100) * Qabs b).
(** [x.max()] (imagery.py 437-438); not called on an empty list. *)
Definition qmax_list (l : list Q) : Q := match l with [] => 0%Q | x :: r => fold_left (fun a b => if Qlt_bool a b then b else a) r x end.
(** [x.min()] (imagery.py 437-438); not called on an empty list. *)
Definition qmin_list (l : list Q) : Q := match l with [] => 0%Q | x :: r => fold_left (fun a b => if Qlt_bool b a then b else a) r x end.
(** imagery.py 425-455; the text naming the resolution is left out. *)
Definition infer_scene (sc : scenes) (x y : list Q) : res string :=
  match x, y with
  | _ :: _ :: _, _ :: _ =>
      let ew := (qmax_list x - qmin_list x)%Q in let ns := (qmax_list y - qmin_list y)%Q in
      let m p := (allclose ew (fst p) && allclose ns (snd p))%bool in
      Ok (if m (sc_full sc) then "FULL" else if m (sc_conus sc) then "CONUS" else if m (sc_meso sc) then "MESO1"
          else if allclose ew (172732 # 1000000) then "CONUS" else "OTHER")%string
  | _ :: _ :: _, [] => Err ValueError
  | _, _ => Err IndexError
  end.

(** * write_goes_imagery *)
(** One element of the loop of imagery.py 533: the field's name; and the attribute
    [divide_grids] as a function. *)
Record gridder := mkGridder
  { gd_xedge : list Q; gd_yedge : list Q; gd_tedges : list Q;
    gd_names : list string; gd_divide : nat -> option nat; gd_platform : pystr }.
(** [(edge[:-1] + edge[1:])/2.0] *)
Definition centers (edge : list Q) : list Q := map (fun p => ((fst p + snd p) / 2)%Q) (combine edge (tl edge)).
(** [denom == 0], [grid == 0]: false for NaN. *)
Definition is_zero (v : fval) : bool := match v with Some q => Qeq_bool q 0 | None => false end.
(** Elementwise division where neither is zero (imagery.py 539). *)
Definition fdiv (a b : fval) : fval := match a, b with Some x, Some y => Some (x / y)%Q | _, _ => None end.
(** imagery.py 535-540 *)
Definition divide (g d : fval) : fval := if (is_zero d || is_zero g)%bool then Some 0%Q else fdiv g d.

Section Write.
Variables (gd : gridder) (xs ys : pyslice) (scaled : bool).
(** imagery.py 543-545: the scaling passed for a field. *)
Definition scaling_of (name : string) : option (Q * Q) := if scaled then glm_scaling name else None.
(** Body of the loop 533-552 for field [i], frame [t]; all arrays of self.outgrids are
    different objects. *)
Definition write_field (t : nat) (outgrids : list array3) (i : nat) : res (list array3) :=
  g <- nth_res outgrids i ;;
  name <- nth_res (gd_names gd) i ;;
  if negb (Nat.ltb t (a_nt g)) then Err IndexError else
  g1 <- match gd_divide gd i with
        | None => Ok g
        | Some d => dn <- nth_res outgrids d ;;
            if negb (Nat.ltb t (a_nt dn)) then Err IndexError
            else Ok (view_set xs ys t g (fun a b => divide (view_at xs ys t g a b) (view_at xs ys t dn a b)))
        end ;;
  let g2 := view_set xs ys t g1 (fun a b => raise_tiny (scaling_of name) (view_at xs ys t g1 a b)) in
  Ok (set_nth i g2 outgrids).
(** [np.flipud(grid.T)]: rows of the image. *)
Definition image (t : nat) (g : array3) : list (list fval) :=
  let nx := slice_len xs (a_nx g) in let ny := slice_len ys (a_ny g) in
  map (fun r => map (fun c => view_at xs ys t g c (ny - 1 - r)) (seq 0 nx)) (seq 0 ny).
(** What is written for a frame: name, coordinates, fields (imagery.py 498-569). *)
Record outfile := mkOut
  { of_name : pystr; of_x : list Q; of_y : list Q; of_fields : list (string * list (list fval)) }.
Variable sc : scenes.
(** [stamp s]: the datetime [t_ref + s seconds]. *)
Variable stamp : Q -> datetime.
(** Body of the loop 498-568.  [now] is the time of the call of datetime.now().  The
    variables refer to the arrays, so what is stored is their content at the end. *)
Definition write_frame (now : datetime) (st : list array3) (t : nat) (t0 t1 : Q) : res (list array3 * outfile) :=
  let x := slice_list xs (centers (gd_xedge gd)) in
  let y := rev (slice_list ys (centers (gd_yedge gd))) in
  scene <- infer_scene sc x y ;;
  name <- dataset_name (stamp t0) (stamp t1) now (gd_platform gd) scene "ABI Mode 3"%string ;;
  let n := Nat.min (List.length st) (List.length (gd_names gd)) in
  st' <- fold_res (write_field t) (seq 0 n) st ;;
  Ok (st', mkOut name x y
    (map (fun ng => (fst ng, map (map (stored (scaling_of (fst ng)))) (image t (snd ng)))) (combine (gd_names gd) st'))).
(** The loop over consecutive time edges (imagery.py 498-569). *)
Fixpoint write_frames (nows : nat -> datetime) (st : list array3) (t : nat) (edges : list Q) : res (list array3 * list outfile) :=
  match edges with
  | t0 :: ((t1 :: _) as rest) =>
      so <- write_frame (nows t) st t t0 t1 ;;
      r <- write_frames nows (fst so) (S t) rest ;;
      Ok (fst r, snd so :: snd r)
  | _ => Ok (st, [])
  end.
(** The call: the files written and the arrays as they are afterwards. *)
Definition write_goes_imagery (nows : nat -> datetime) (outgrids : list array3) : res (list array3 * list outfile) :=
  write_frames nows outgrids 0 (gd_tedges gd).
End Write.

(** make_grids.py 313-323 (field_names): the gridder used with the event lookup table. *)
Definition lut_names : list string :=
  ["flash_extent_density"; "flash_centroid_density"; "average_flash_area"; "total_energy";
   "group_extent_density"; "group_centroid_density"; "average_group_area"; "minimum_flash_area"]%string.
(** make_grids.py 596-597: divide_grids. *)
Definition lut_divide (i : nat) : option nat :=
  match i with 2%nat => Some 0%nat | 6%nat => Some 4%nat | _ => None end.
(** make_grids.py 726-736: get_pad_slices, for one axis. *)
Definition pad_slice (n : Z) : pyslice := if n =? 0 then slice_all else mkSlice (Some n) (Some (- n)).
