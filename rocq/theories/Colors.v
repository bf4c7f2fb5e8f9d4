(** Model of the colors of the energy spectra of examples/glm-lasso-stats.py (330-342): a
    number for every edge of the time windows, and the scale of the colors. *)
From Coq Require Import List ZArith QArith Bool String Ascii.
From Verif Require Import Base FileName Output LassoGrid GridSetup.
Import ListNotations.
Open Scope Z_scope.

(** [s.replace(':', '')] (332) *)
Definition without_colons (s : pystr) : pystr := filter (fun c => negb (Ascii.eqb c ":")) s.
(** [str(t)[11:].replace(':', '')] (332) *)
Definition clock_text (d : datetime) : pystr := without_colons (skipn 11 (date_text d)).
(** A number in decimal digits (333); None if there is anything else. *)
Fixpoint digits_value (acc : Z) (s : pystr) : option Z :=
  match s with
  | [] => Some acc
  | c :: r => match digit_val c with Some d => digits_value (acc * 10 + d) r | None => None end
  end.
(** The text before and after the first point (333). *)
Fixpoint split_point (s : pystr) : pystr * pystr :=
  match s with
  | [] => ([], [])
  | c :: r => if Ascii.eqb c "." then ([], r) else let (a, b) := split_point r in (c :: a, b)
  end.
(** [np.asarray(texts).astype(float)] (333) for one text of digits with at most one point; other
    texts that numpy accepts (signs, exponents, blanks) do not occur.  The number is exact,
    not rounded to a float. *)
Definition float_of (s : pystr) : res Q :=
  let (a, b) := split_point s in
  match a, digits_value 0 a, digits_value 0 b with
  | _ :: _, Some x, Some y => Ok (inject_Z x + inject_Z y / inject_Z (10 ^ Z.of_nat (List.length b)))%Q
  | _, _, _ => Err ValueError
  end.
(** 330-333: time_array. *)
Definition time_array (edges : list datetime) : res (list Q) := map_res (fun t => float_of (clock_text t)) edges.
(** matplotlib Normalize(vmin, vmax) (335-337) applied to a number: 0 if the two are equal. *)
Definition normalized (vmin vmax v : Q) : Q := if Qeq_bool vmin vmax then 0%Q else ((v - vmin) / (vmax - vmin))%Q.
(** 330-342: the position of each edge in the map of colors.  [min] of an empty array raises
    ValueError. *)
Definition colors (edges : list datetime) : res (list Q) :=
  vs <- time_array edges ;;
  lo <- qmin_list vs ;;
  hi <- qmax_list vs ;;
  Ok (map (normalized lo hi) vs).
