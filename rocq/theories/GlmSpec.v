(** Specification vocabulary for opened GLM datasets: relations between rows of
    the file and rows of the dataset in memory. *)
From Coq Require Import List ZArith QArith Bool String Permutation.
From Verif Require Import Base Traversal TraversalSpec Glm.
Import ListNotations.
Open Scope Z_scope.

Local Notation tbl := (table obs).

(** Every row of [B] names a row of [A]; every row of [A] is named. *)
Definition linked {P} (A B : table P) : Prop := forall s, In s B -> exists r, In r A /\ rid r = rpid s.
Definition fertile {P} (A B : table P) : Prop := forall r, In r A -> exists s, In s B /\ rpid s = rid r.

(** The events of flash [i]: those whose group belongs to it. *)
Definition flash_events (G E : tbl) (i : Z) : tbl :=
  filter (fun e => existsb (fun g => (rid g =? rpid e) && (rpid g =? i))%bool G) E.

(** Physical values after opening. *)
Definition energy_out (op : options) (v : fval) : fval :=
  if opt_energy op then option_map (fun q => q * (1000000000 # 1))%Q v else v.
Definition event_energy_out (op : options) (h : header) (v : fval) : fval :=
  match v with
  | None => None
  | Some q => energy_out op
      (Some (if opt_energy op
             then if Qlt_le_dec q (ev_offset h + ev_scale h)
                  then ((1 # 2) * (ev_offset h + ev_scale h))%Q else q
             else q))
  end.
Definition area_out (op : options) (units : string) (largest : Q) (v : fval) : fval :=
  if opt_area op then
    let a := match v with Some a => a | None => largest end in
    Some (if String.eqb units "m2" then (a * (1 # 1000000))%Q else a)
  else v.

Section Rows.
Variable nav : fval -> fval -> fval * fval.
Variables (op : options) (h : header) (F G E : tbl).

Definition same_place (r r' : row obs) : Prop :=
  rid r' = rid r /\ rpid r' = rpid r /\
  o_lon (rdat r') = o_lon (rdat r) /\ o_lat (rdat r') = o_lat (rdat r) /\
  (o_x (rdat r'), o_y (rdat r')) = nav (o_lon (rdat r)) (o_lat (rdat r)).

Definition flash_row (f f' : row obs) : Prop :=
  same_place f f' /\
  o_energy (rdat f') = energy_out op (o_energy (rdat f)) /\
  o_area (rdat f') = area_out op (u_flash_area h) (fa_offset h + fa_scale h * fa_fill h)%Q (o_area (rdat f)) /\
  o_nchild (rdat f') = List.length (with_parent G (rid f)) /\
  o_nevent (rdat f') = List.length (flash_events G E (rid f)).

Definition group_row (g g' : row obs) : Prop :=
  same_place g g' /\
  o_energy (rdat g') = energy_out op (o_energy (rdat g)) /\
  o_area (rdat g') = area_out op (u_group_area h) (ga_offset h + ga_scale h * ga_fill h)%Q (o_area (rdat g)) /\
  o_nchild (rdat g') = List.length (with_parent E (rid g)).

Definition event_row (e e' : row obs) : Prop :=
  same_place e e' /\
  o_energy (rdat e') = event_energy_out op h (o_energy (rdat e)) /\
  (exists g, In g G /\ rid g = rpid e /\ o_flash (rdat e') = rpid g).
End Rows.

(** Units after opening. *)
Definition header_out (op : options) (h : header) : header :=
  let ua u := if opt_area op then if String.eqb u "m2" then "km2"%string else u else u in
  let ue u := if opt_energy op then "nJ"%string else u in
  mkHeader (ue (u_flash_energy h)) (ue (u_group_energy h)) (ue (u_event_energy h))
    (ua (u_flash_area h)) (ua (u_group_area h))
    (ev_offset h) (ev_scale h) (fa_offset h) (fa_scale h) (fa_fill h)
    (ga_offset h) (ga_scale h) (ga_fill h).

(** The derived variables agree with the tree. *)
Definition derived_ok (F G E : tbl) : Prop :=
  consistent [F; G; E] /\
  (forall e, In e E -> exists g, In g G /\ rid g = rpid e /\ o_flash (rdat e) = rpid g) /\
  (forall g, In g G -> o_nchild (rdat g) = List.length (with_parent E (rid g))) /\
  (forall f, In f F -> o_nchild (rdat f) = List.length (with_parent G (rid f)) /\
     o_nevent (rdat f) = List.length (filter (fun e => o_flash (rdat e) =? rid f) E)).

(** Strictly between the bounds; NaN is not. *)
Definition strictly (r : Q * Q) (v : fval) : Prop :=
  exists x, v = Some x /\ (fst r < x)%Q /\ (x < snd r)%Q.

(** What subset_flashes documents for flash [f] of a dataset with events [E]:
    centroid in the requested ranges, enough events and groups, and some event
    inside the requested fixed grid ranges and the field of view. *)
Definition wanted (q : query) (G E : tbl) (f : row obs) : Prop :=
  (forall r, q_x q = Some r -> strictly r (o_x (rdat f))) /\
  (forall r, q_y q = Some r -> strictly r (o_y (rdat f))) /\
  (forall r, q_lon q = Some r -> strictly r (o_lon (rdat f))) /\
  (forall r, q_lat q = Some r -> strictly r (o_lat (rdat f))) /\
  (forall m, q_min_events q = Some m -> m <= Z.of_nat (List.length (flash_events G E (rid f)))) /\
  (forall m, q_min_groups q = Some m -> m <= Z.of_nat (List.length (with_parent G (rid f)))) /\
  (exists e, In e (flash_events G E (rid f)) /\
     let fov := (-(1349 # 10000), 1349 # 10000)%Q in
     strictly fov (o_x (rdat e)) /\ strictly fov (o_y (rdat e)) /\
     (forall r, q_x q = Some r -> strictly r (o_x (rdat e))) /\
     (forall r, q_y q = Some r -> strictly r (o_y (rdat e)))).

(** Row of the file, row in memory: same identity and position, energy and area
    as given by [en] and [ar]. *)
Definition converted (en ar : fval -> fval) (r r' : row obs) : Prop :=
  rid r' = rid r /\ rpid r' = rpid r /\
  o_lon (rdat r') = o_lon (rdat r) /\ o_lat (rdat r') = o_lat (rdat r) /\
  o_energy (rdat r') = en (o_energy (rdat r)) /\ o_area (rdat r') = ar (o_area (rdat r)).

(** Rows of the file that opening keeps. *)
Definition kept {P} (check : bool) (F G E F0 G0 E0 : table P) : Prop :=
  if check then
    Permutation G0 G /\
    (forall f, In f F0 <-> In f F /\ exists g, In g G /\ rpid g = rid f) /\
    (forall e, In e E0 <-> In e E /\ exists g, In g G /\ rid g = rpid e)
  else F0 = F /\ G0 = G /\ E0 = E.
