(** Model of clipping in integer coordinates (glmtools/grid/clipping.py 392-446): the
    coordinates are multiplied by 2**31 and cut to integers, the clipping library works on
    integers, and its answer is divided by 2**31. *)
From Coq Require Import List ZArith QArith Bool.
From Verif Require Import Base Poly.
Import ListNotations.

(** A point and a polygon with integer coordinates. *)
Notation ipt := (Z * Z)%type.
Notation ipoly := (list (Z * Z)).

(** The default factor of pyclipper's scale_to_clipper, 2**31 (clipping.py 423-424, and 429). *)
Definition scale_fact : positive := 2147483648.
(** pyclipper.scale_to_clipper on one number: the product is cut towards zero (a C cast to a
    64-bit integer; numbers too large for it are left out). *)
Definition scale_value (v : Q) : Z := Z.quot (Qnum v * Zpos scale_fact) (Zpos (Qden v)).
(** pyclipper.scale_from_clipper on one number. *)
Definition unscale_value (z : Z) : Q := z # scale_fact.
(** clipping.py 423-424: scale_to_clipper on a polygon (nested lists are walked). *)
Definition scale_to (p : poly) : ipoly := map (fun v => (scale_value (fst v), scale_value (snd v))) p.
(** clipping.py 440: scale_from_clipper on a polygon. *)
Definition scale_from (p : ipoly) : poly := map (fun v => (unscale_value (fst v), unscale_value (snd v))) p.

Section Clip.
(** pyclipper: [iclip p q] is the intersection of the subject [q] with the clip path [p], as
    closed paths (clip_poly_pair, clipping.py 392-404).  Paths the library refuses (fewer than
    three distinct points), for which it raises, are left out. *)
Variable iclip : ipoly -> ipoly -> list ipoly.
(** clipping.py 422-441, for one of the polygons: the pieces of [q] inside [p]. *)
Definition scaled_clip (p q : poly) : list poly := map scale_from (iclip (scale_to p) (scale_to q)).
(** clipping.py 406-446: clip_polys_by_one_poly with scale=True. *)
Definition clip_scaled (polys : list poly) (p : poly) : list poly * list nat :=
  let ip := scale_to p in
  let all_clip_polys := map (fun q => map scale_from (iclip ip (scale_to q))) polys in
  (List.concat all_clip_polys, map (@List.length poly) all_clip_polys).
End Clip.
