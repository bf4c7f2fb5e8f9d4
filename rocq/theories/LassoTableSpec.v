(** Specification vocabulary for the table of flash statistics in polygons. *)
From Coq Require Import List ZArith QArith Bool String Ascii.
From Verif Require Import Base FileName FileNameSpec Traversal TraversalSpec Glm GlmSpec Points PointsSpec.
Import ListNotations.
Open Scope string_scope.
Open Scope list_scope.
Open Scope Z_scope.

(** A table of text is read by lines, which end with a newline, and these by cells, which a
    comma and a space separate. *)
Fixpoint cut (c : ascii) (s : pystr) : list pystr :=
  match s with
  | [] => [[]]
  | a :: r => if Ascii.eqb a c then [] :: cut c r
              else match cut c r with [] => [[a]] | h :: t => (a :: h) :: t end
  end.
Definition without_space (s : pystr) : pystr := match s with " "%char :: r => r | _ => s end.
Definition read_table (s : pystr) : list (list pystr) :=
  map (fun l => map without_space (cut "," l)) (removelast (cut "010" s)).
(** Neither comma, newline nor space: a number as text. *)
Definition plain_text (s : pystr) : Prop := forall c, In c s -> c <> ","%char /\ c <> "010"%char /\ c <> " "%char.

(** The value of a field of a record. *)
Definition has_field (r : list (string * pystr)) (k : string) (v : pystr) : Prop :=
  exists pre post, r = pre ++ (k, v) :: post /\ ~ In k (map fst pre).
(** The statistics in the table, in order. *)
Definition statistics_names : list string :=
  ["number"; "mean"; "variance"; "skewness"; "kurtosis"; "energy"; "energy_per_flash"; "total_energy"; "specific_energy"].

(** Time of a datetime in nanoseconds. *)
Definition ns (d : datetime) : Z := instant d * 1000.
(** Seconds after [base], which is where the polygons are looked up. *)
Definition seconds_after (base t : Z) : fval := Some (inject_Z (t - base) / inject_Z 1000000000)%Q.
(** Between two bounds, both included. *)
Definition ranged (b : Q * Q) (v : fval) : Prop := exists x, v = Some x /\ (fst b <= x <= snd b)%Q.
(** The flash [x] of a file counts for the time from [e1] until [e2]: it starts then, its centroid is
    in the polygon of its time, and its area, energy and numbers of events and groups are as
    wanted.  GLM flashes have no altitude: it is taken as 0. *)
Definition counts (base : Z) (lasso : fval -> fval -> fval -> bool) (area alt energy : Q * Q) (min_events min_groups : Z)
  (e : datetime * datetime) (f : glmfile) (x : row obs) : Prop :=
  exists F G E, g_data f = [F; G; E] /\ In x F /\
    let t := t_first (g_clock f) (rid x) in
    ns (fst e) <= t < ns (snd e) /\
    lasso (o_lon (rdat x)) (o_lat (rdat x)) (seconds_after base t) = true /\
    ranged area (o_area (rdat x)) /\ ranged alt (Some 0%Q) /\ ranged energy (o_energy (rdat x)) /\
    min_events <= Z.of_nat (List.length (flash_events G E (rid x))) /\
    min_groups <= Z.of_nat (List.length (with_parent G (rid x))).
