(** Model of the statistics of gridded fields within lassos in examples/glm-lasso-stats.py
    (408-512), without the drawing. *)
From Coq Require Import List ZArith QArith Bool String Ascii.
From Verif Require Import Base FileName FileNameSpec Poly Imagery Output.
Import ListNotations.
Open Scope string_scope.
Open Scope list_scope.
Open Scope Z_scope.

(** One image of the collection of grids: time, edges, values by row (latitude) and column. *)
Record lgrid := mkGrid { lg_time : datetime; lg_xedge : list Q; lg_yedge : list Q; lg_data : list (list Q) }.
(** One lasso: valid from, until (exclusive), and the points inside. *)
Record lasso := mkLasso { ls_from : datetime; ls_until : datetime; ls_inside : Q -> Q -> bool }.
(** [str(t)] *)
Definition date_text (d : datetime) : pystr :=
  pad 4 (dt_year d) ++ lit "-" ++ pad 2 (fst (date_of d)) ++ lit "-" ++ pad 2 (snd (date_of d)) ++ lit " "
  ++ pad 2 (dt_hour d) ++ lit ":" ++ pad 2 (dt_min d) ++ lit ":" ++ pad 2 (dt_sec d)
  ++ (if dt_us d =? 0 then [] else lit "." ++ pad 6 (dt_us d)).
(** A line of the table: time, maximum, sum and three percentiles. *)
Record line := mkLine { ln_time : pystr; ln_max : Q; ln_sum : Q; ln_p5 : Q; ln_p50 : Q; ln_p95 : Q }.

(** [np.sort] *)
Fixpoint insert_q (x : Q) (l : list Q) : list Q :=
  match l with [] => [x] | y :: r => if Qle_bool x y then x :: l else y :: insert_q x r end.
(** [np.sort] *)
Definition sort_q (l : list Q) : list Q := fold_right insert_q [] l.
(** [scipy.stats.scoreatpercentile(a, per)] for an array that is not empty: interpolation
    between the two nearest in order. *)
Definition score (a : list Q) (per : Z) : Q :=
  let s := sort_q a in
  let n := Z.of_nat (List.length a) - 1 in
  let i := per * n / 100 in
  let w := (inject_Z (per * n - 100 * i) / 100)%Q in
  ((1 - w) * nth (Z.to_nat i) s 0 + w * nth (Z.to_nat (i + 1)) s 0)%Q.
(** [v.max()] of an array that is not empty *)
Definition max_of (l : list Q) : Q :=
  match l with [] => 0%Q | x :: r => fold_left (fun a b => if Qle_bool a b then b else a) r x end.

Section Lassos.
(** Rounding to 32 bits (the columns t, lon and lat of the array [a], line 430). *)
Variable f4 : Q -> Q.
Variable base : datetime.
(** The lookup of grid_lassos (mimic_lma.py 1091-1092). *)
Variable lassos : list lasso.
(** [(t-basedate).total_seconds()] *)
Definition seconds_of (d : datetime) : Q := (inject_Z (instant d - instant base) / 1000000)%Q.
(** lmatools TimeSeriesPolygonLassoFilter.filter_mask for one element: within a lasso during
    its time. *)
Definition mask_of (t lon lat : Q) : bool :=
  existsb (fun l => Qle_bool (seconds_of (ls_from l)) t && negb (Qle_bool (seconds_of (ls_until l)) t) && ls_inside l lon lat)%bool lassos.
(** glm-lasso-stats.py 418-434: the array [a] as (lon, lat, value); the assertion of line 423
    is a ValueError here. *)
Definition cells_of (g : lgrid) : res (list (Q * Q * Q)) :=
  let x := centers (lg_xedge g) in
  let y := centers (lg_yedge g) in
  if (Nat.eqb (List.length (lg_data g)) (List.length y) && forallb (fun r => Nat.eqb (List.length r) (List.length x)) (lg_data g))%bool
  then Ok (flat_map (fun yr => map (fun xv => (fst xv, fst yr, snd xv)) (combine x (snd yr))) (combine y (lg_data g)))
  else Err ValueError.
(** glm-lasso-stats.py 431, 436-441, 497-505 (no slicer): the line of one grid. *)
Definition line_of (g : lgrid) : res line :=
  a <- cells_of g ;;
  let t := f4 (seconds_of (lg_time g) + 1) in
  let v := map snd (filter (fun c => mask_of t (f4 (fst (fst c))) (f4 (snd (fst c)))) a) in
  let vnz := filter (fun q => negb (Qle_bool q 0)) v in
  Ok (match vnz with
      | [] => mkLine (date_text (lg_time g)) 0 0 0 0 0
      | _ => mkLine (isoformat (lg_time g)) (max_of v) (qsum v) (score vnz 5) (score vnz 50) (score vnz 95)
      end).
(** glm-lasso-stats.py 508-545: the lines of the table of one field, below the header. *)
Definition table_of (t_start t_end : datetime) (grids : list lgrid) : res (list line) :=
  map_res line_of (filter (fun g => (instant t_start <=? instant (lg_time g)) && (instant (lg_time g) <=? instant t_end))%bool grids).
End Lassos.
