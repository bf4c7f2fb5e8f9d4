(** Specification vocabulary for written imagery. *)
From Coq Require Import List ZArith QArith Qabs Bool String.
From Verif Require Import Base Glm Lut Imagery.
Import ListNotations.
Open Scope Q_scope.

(** Centre of cell number [k] between the edges. *)
Definition center (edge : list Q) (k : nat) : Q := (nth k edge 0 + nth (S k) edge 0) / 2.
Definition ascending (l : list Q) : Prop := forall i j, (i < j < List.length l)%nat -> nth i l 0 < nth j l 0.

(** Steps in which the field of the given name is stored in scaled mode. *)
Definition step (name : string) : option Q :=
  match name with
  | "flash_extent_density" => Some (1 # 16)
  | "flash_centroid_density" | "group_centroid_density" | "average_group_area" => Some 1
  | "average_flash_area" | "minimum_flash_area" => Some 10
  | "event_density" | "group_extent_density" => Some (1 # 4)
  | "total_energy" => Some (152597 # 100000000000)
  | _ => None
  end%string.
(** What a reader of the file may find (None is missing) for the number [v]: zero is
    missing; in steps, any other number up to 65535 steps is found within half a step,
    less than a step is one step, and a whole number of steps is found exactly. *)
Definition shows (s : option Q) (v : Q) (w : fval) : Prop :=
  (v == 0 -> w = None) /\
  (0 < v ->
   match s with
   | None => exists u, w = Some u /\ u == v
   | Some s => v <= 65535 * s -> exists u, w = Some u /\ (v <= s -> u == s) /\ (s <= v -> Qabs (u - v) <= s / 2) /\ (forall k, v == inject_Z k * s -> u == v)
   end).
(** The value in field [i] of a written file at row [r] and column [c]. *)
Definition pixel_of (f : outfile) (i r c : nat) (w : fval) : Prop :=
  exists name rows row, nth_error (of_fields f) i = Some (name, rows) /\ nth_error rows r = Some row /\ nth_error row c = Some w.
(** All fields of a file are images with [h] rows of [w] pixels. *)
Definition rectangular (f : outfile) (h w : nat) : Prop :=
  Forall (fun nr => List.length (snd nr) = h /\ Forall (fun row => List.length row = w) (snd nr)) (of_fields f).
(** Arrays as the gridder makes them: one for each field, all of the same shape. *)
Definition shaped (outgrids : list array3) (nx ny nt : nat) : Prop :=
  Forall (fun a => a_nx a = nx /\ a_ny a = ny /\ a_nt a = nt) outgrids.
(** A table of numerators and denominators in which denominators come first and are not
    divided themselves. *)
Definition simple_divide (div : nat -> option nat) : Prop := forall i d, div i = Some d -> (d < i)%nat /\ div d = None.
(** A call of write_goes_imagery on the arrays [outgrids] of a gridder, [pad] cells of
    padding on each side around mx times my cells, that ended without exception leaving
    the arrays [after] and the files [files]. *)
Definition writes (gd : gridder) (pad : nat) (scaled : bool) (mx my : nat) (outgrids after : list array3) (files : list outfile) : Prop :=
  ascending (gd_xedge gd) /\ ascending (gd_yedge gd) /\
  List.length (gd_xedge gd) = S (mx + 2 * pad) /\ List.length (gd_yedge gd) = S (my + 2 * pad) /\
  shaped outgrids (mx + 2 * pad) (my + 2 * pad) (List.length (gd_tedges gd) - 1) /\
  List.length (gd_names gd) = List.length outgrids /\ simple_divide (gd_divide gd) /\
  exists sc stamp nows,
    write_goes_imagery gd (pad_slice (Z.of_nat pad)) (pad_slice (Z.of_nat pad)) scaled sc stamp nows outgrids = Ok (after, files).
(** Content of array [i] at x, y, time. *)
Definition cell (outgrids : list array3) (i x y t : nat) (v : fval) : Prop :=
  exists a, nth_error outgrids i = Some a /\ a_at a x y t = v.
(** Steps of field [i] in this kind of output. *)
Definition steps (gd : gridder) (scaled : bool) (i : nat) : option Q :=
  match nth_error (gd_names gd) i with Some name => if scaled then step name else None | None => None end.
