(** Specification vocabulary for navigation: points, ellipsoids, directions. *)
From Coq Require Import ZArith Reals.
Open Scope R_scope.

(** A point in metres, earth centred: x towards the satellite, y east, z north. *)
Record point := mkPt { px : R; py : R; pz : R }.

(** The sum of squares that is 1 on the ellipsoid of revolution, more outside. *)
Definition level (a b : R) (p : point) : R :=
  (px p / a) ^ 2 + (py p / a) ^ 2 + (pz p / b) ^ 2.

(** The satellite, at distance [h] of the centre of the earth. *)
Definition satellite (h : R) : point := mkPt h 0 0.

(** The point at fraction [t] of the way from [p] to [q]. *)
Definition between (p q : point) (t : R) : point :=
  mkPt (px p + t * (px q - px p)) (py p + t * (py q - py p)) (pz p + t * (pz q - pz p)).

(** [p] is seen at scan angle [beta] (east-west) and elevation angle [alpha]
    (north-south): going from the satellite, some distance in the direction of
    these angles, one reaches [p]. *)
Definition seen_at (h beta alpha : R) (p : point) : Prop :=
  - (PI / 2) < beta < PI / 2 /\ - (PI / 2) < alpha < PI / 2 /\
  exists d, 0 < d /\
    px p = h - d * (cos beta * cos alpha) /\
    py p = d * sin beta /\
    pz p = d * (cos beta * sin alpha).

(** [p] lies in the direction, from the centre of the earth, of geocentric
    latitude [phi] and longitude offset [lam] (radians). *)
Definition towards (phi lam : R) (p : point) : Prop :=
  - (PI / 2) < phi < PI / 2 /\
  exists r, 0 < r /\ px p = r * (cos phi * cos lam) /\ py p = r * (cos phi * sin lam) /\ pz p = r * sin phi.

(** The geocentric latitude of a point of the ellipsoid with radii [a], [b] whose
    normal makes the angle [geod] with the equator. *)
Definition geocentric_of (a b geod phi : R) : Prop := tan phi = (b / a) ^ 2 * tan geod.

(** The normal of the ellipsoid with radii [a], [b] at [p] makes the angle [geod]
    with the plane of the equator. *)
Definition geodetic_latitude (a b geod : R) (p : point) : Prop :=
  exists n, 0 < n /\
    pz p / b ^ 2 = n * sin geod /\ (px p / a ^ 2) ^ 2 + (py p / a ^ 2) ^ 2 = (n * cos geod) ^ 2 /\ 0 <= cos geod.

(** [p] is visible: nothing of the ellipsoid is met on the way to it. *)
Definition visible (a b h : R) (p : point) : Prop :=
  forall t, 0 < t < 1 -> 1 < level a b (between (satellite h) p t).
