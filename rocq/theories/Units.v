(** Model of the labels of the output variables: output_setup (glmtools/grid/make_grids.py
    273-363), whose texts are the attributes of the variables written by
    glmtools/io/imagery.py 493-552.  Numbers are binary64, bit exact. *)
From Coq Require Import List ZArith QArith Bool String Ascii Floats.SpecFloat.
From Verif Require Import Base Unsigned FileName Imagery Output.
Import ListNotations.
Open Scope string_scope.
Open Scope list_scope.
Open Scope Z_scope.

(** ['{0:Nd}'.format(n)]: at least N wide, blanks in front. *)
Definition wide (n : nat) (s : pystr) : pystr := repeat " "%char (n - List.length s) ++ s.
(** [s.lstrip()] for blanks. *)
Fixpoint lstrip (s : pystr) : pystr :=
  match s with c :: r => if Ascii.eqb c " " then lstrip r else s | [] => [] end.
(** ['{0:d}'.format(n)] *)
Definition integer_text (n : Z) : pystr := if n <? 0 then "-"%char :: int_text (- n) else int_text n.
(** The absolute value of a finite binary64 number. *)
Definition magnitude (x : f64) : Q :=
  match x with
  | S754_finite _ m e => (inject_Z (Zpos m) * Qpower 2 e)%Q
  | _ => 0%Q
  end.
(** ['{0:.1f}'.format(x)]: the number of tenths nearest to the exact value, half way to even. *)
Definition tenths_text (x : f64) : pystr :=
  let t := round_even (magnitude x * 10) in
  let s := int_text (t / 10) ++ lit "." ++ int_text (t mod 10) in
  match x with
  | S754_nan => lit "nan"
  | S754_infinity false => lit "inf"
  | S754_infinity true => lit "-inf"
  | S754_finite true _ _ | S754_zero true => lit "-" ++ s
  | _ => s
  end.

(** Which projection the gridder has: proj_name is 'latlong', 'geos' or another. *)
Inductive projection := Latlong | Geos | Other.
(** make_grids.py 292-297: density_units.  [int] of a number that is not finite raises
    (OverflowError or ValueError; one of them here). *)
Definition density_units (p : projection) (dx dy spatial_scale_factor : f64) : res pystr :=
  match p with
  | Latlong => Ok (lit "grid")
  | Geos => match to_int (fmul (fmul dx dy) (of_int 1000000000000)) with
            | Some k => Ok (lit "nominal " ++ wide 7 (integer_text k) ++ lit " microradian^2")
            | None => Err OverflowError
            end
  | Other => Ok (lstrip (wide 5 (tenths_text (fmul (fmul (fmul dx spatial_scale_factor) dy) spatial_scale_factor)) ++ lit " km^2"))
  end.
(** make_grids.py 298: time_units. *)
Definition time_units (frame_interval : f64) : pystr :=
  lstrip (wide 5 (tenths_text (Unsigned.fdiv frame_interval (of_int 60))) ++ lit " min").
(** make_grids.py 299: density_label. *)
Definition density_label (p : projection) (dx dy ssf frame_interval : f64) : res pystr :=
  d <- density_units p dx dy ssf ;;
  Ok (lit "Count per " ++ d ++ lit " pixel per " ++ time_units frame_interval).
(** make_grids.py 325-335: field_descriptions. *)
Definition field_descriptions : list string :=
  ["Flash extent density"; "Flash centroid density"; "Average flash area"; "Total radiant energy";
   "Group extent density"; "Group centroid density"; "Average group area"; "Minimum flash area"].
(** make_grids.py 348-359: field_units. *)
Definition field_units (label : pystr) : list pystr :=
  [label; label; lit "km^2 per flash"; lit "nJ"; label; label; lit "km^2 per group"; lit "km^2"].

(** imagery.py 355-358: the attributes of a variable in the file. *)
Record varattrs := mkVar { va_name : string; va_standard : string; va_long : string; va_units : pystr; va_mapping : string }.
(** imagery.py 493-494, 533-552 with glm_image_to_var: the variables of every file of a gridder
    (make_grids.py 313-323: its field_names); zip stops at the shortest. *)
Definition file_variables (p : projection) (dx dy ssf frame_interval : f64) : res (list varattrs) :=
  label <- density_label p dx dy ssf frame_interval ;;
  Ok (map (fun ndu => mkVar (fst (fst ndu)) (fst (fst ndu)) (snd (fst ndu)) (snd ndu) "goes_imager_projection")
        (combine (combine lut_names field_descriptions) (field_units label))).
