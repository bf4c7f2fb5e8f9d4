(** Specification vocabulary for the energy observed in a region. *)
From Coq Require Import List ZArith QArith Bool String Permutation.
From Verif Require Import Base Traversal TraversalSpec Glm GlmSpec Lut LutSpec.
Import ListNotations.
Open Scope Z_scope.

Local Notation tbl := (table obs).

(** A file that can be opened: every level has rows, the identifiers are unique and name
    each other, the energies are in joules. *)
Definition good_file (f : header * list tbl) : Prop :=
  exists F G E, snd f = [F; G; E] /\ F <> [] /\ G <> [] /\ E <> [] /\ consistent [F; G; E] /\
    (u_flash_energy (fst f) = "J" /\ u_group_energy (fst f) = "J" /\ u_event_energy (fst f) = "J")%string.

(** The energy of an event in nanojoules; zero energies count as half the smallest value
    the file can hold, missing ones as nothing. *)
Definition nanojoules (h : header) (e : row obs) : Q :=
  match o_energy (rdat e) with
  | Some v => (1000000000 # 1) * (if Qlt_le_dec v (ev_offset h + ev_scale h) then (1 # 2) * (ev_offset h + ev_scale h) else v)
  | None => 0
  end%Q.

(** Event [e] of the file belongs to flash [f]. *)
Definition of_flash (G : tbl) (f e : row obs) : Prop := exists g, In g G /\ rid g = rpid e /\ rid f = rpid g.
(** Flash [f] has an event in the field of view of the instrument. *)
Definition seen (nav : fval -> fval -> fval * fval) (G E : tbl) (f : row obs) : Prop :=
  exists e, In e E /\ of_flash G f e /\
    let p := nav (o_lon (rdat e)) (o_lat (rdat e)) in
    let fov := (-(1349 # 10000), 1349 # 10000)%Q in strictly fov (fst p) /\ strictly fov (snd p).
(** The events counted for a region: those of the flashes with their centroid in it. *)
Definition counted nav (lon lat : Q * Q) (F G E : tbl) (e : row obs) : Prop :=
  In e E /\ exists f, In f F /\ of_flash G f e /\ strictly lon (o_lon (rdat f)) /\ strictly lat (o_lat (rdat f)) /\ seen nav G E f.

(** [v] is the energy in the region, each event counted once. *)
Definition energy_in nav (lon lat : Q * Q) (f : header * list tbl) (v : Q) : Prop :=
  exists F G E sel, snd f = [F; G; E] /\ NoDup (map rid sel) /\ (forall e, In e sel <-> counted nav lon lat F G E e) /\
    (v == qsum (map (nanojoules (fst f)) sel))%Q.

(** Every event of the file has an energy. *)
Definition with_energies (f : header * list tbl) : Prop := forall e, In e (nth 2 (snd f) []) -> o_energy (rdat e) <> None.
(** No event of the file has a negative energy, and the smallest value it can hold is not
    negative. *)
Definition no_negative (f : header * list tbl) : Prop :=
  (0 <= ev_offset (fst f) + ev_scale (fst f))%Q /\
  forall e v, In e (nth 2 (snd f) []) -> o_energy (rdat e) = Some v -> (0 <= v)%Q.
(** No flash of the file has its centroid on the meridian [m]. *)
Definition off_meridian (m : Q) (f : header * list tbl) : Prop :=
  forall r v, In r (nth 0 (snd f) []) -> o_lon (rdat r) = Some v -> ~ (v == m)%Q.
Definition off_parallel (m : Q) (f : header * list tbl) : Prop :=
  forall r v, In r (nth 0 (snd f) []) -> o_lat (rdat r) = Some v -> ~ (v == m)%Q.
(** The two queries want the same flashes of an opened dataset. *)
Definition same_flashes (q q' : query) (ds : list tbl) : Prop :=
  forall r, In r (nth 0 ds []) -> (wanted q (nth 1 ds []) (nth 2 ds []) r <-> wanted q' (nth 1 ds []) (nth 2 ds []) r).
