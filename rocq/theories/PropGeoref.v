(** C92: where an image says that lightning is. *)
From Coq Require Import List ZArith Bool String Reals Lra Lia Psatz.
From Verif Require Import Base FileName FileNameSpec Ellipse EllipseSpec EllipseProofs PropEllipse Georef.
Import ListNotations.
Open Scope string_scope.
Open Scope list_scope.
Open Scope R_scope.

(** * Specification *)
(** Points in earth-fixed coordinates: x towards longitude 0 on the equator, y towards 90 degrees
    east, z north.  [located a b lon lat 0 P]: [P] is the point at [lon], [lat]. *)

(** The direction of the angles [x], [y] from a geostationary satellite: shares towards the
    earth, the east and the north, by the axis of the sweep (CF conventions, geostationary). *)
Definition direction (sweep : string) (x y c e n : R) : Prop :=
  (sweep = "x" /\ c = cos x * cos y /\ e = sin x /\ n = cos x * sin y) \/
  (sweep = "y" /\ c = cos x * cos y /\ e = sin x * cos y /\ n = sin y).
(** [P] is on the line of sight that a projection variable gives to the angles [x], [y]: the
    satellite is over the equator at the longitude of origin, the given height above the
    ellipsoid. *)
Definition in_sight (p : projection) (x y : R) (P : point) : Prop :=
  - (PI / 2) < x < PI / 2 /\ - (PI / 2) < y < PI / 2 /\ pr_lat_origin p = 0 /\
  exists c e n d, direction (pr_sweep p) x y c e n /\ 0 < d /\
    let D := pr_height p + pr_major p in let l := degrees (pr_lon_origin p) in
    px P = D * cos l - d * c * cos l - d * e * sin l /\
    py P = D * sin l - d * c * sin l + d * e * cos l /\
    pz P = d * n.
(** Longitudes that differ by whole turns. *)
Definition same_longitude (a b : R) : Prop := exists k, a = b + 360 * IZR k.
(** The revision of the ellipsoid: the one asked for, or by the time of the data. *)
Definition revision (asked : Z) (time : datetime) (r : Z) : Prop :=
  ((0 <= asked)%Z /\ r = asked) \/
  ((asked < 0)%Z /\ ((instant time < instant revision_date)%Z /\ r = 0%Z \/ (instant revision_date <= instant time)%Z /\ r = 1%Z)).

(** * Proofs *)
(** The coordinates as seen from a satellite over longitude [lon]. *)
Definition turned (lon : R) (P : point) : point :=
  mkPt (px P * cos (degrees lon) + py P * sin (degrees lon)) (py P * cos (degrees lon) - px P * sin (degrees lon)) (pz P).
Lemma cs : forall l, cos l * cos l = 1 - sin l * sin l.
Proof. intro l. pose proof (sin2_cos2 l) as T. unfold Rsqr in T. lra. Qed.

Lemma sight_turned : forall nadir x y P,
  in_sight (get_goes_imager_proj nadir) x y P <-> seen_at sat_distance x y (turned nadir P).
Proof.
  intros nadir x y P. unfold in_sight, seen_at, turned. cbn [get_goes_imager_proj pr_lat_origin pr_sweep pr_height pr_major pr_lon_origin px py pz].
  set (l := degrees nadir). pose proof (cs l) as C.
  replace (35786023 + 6378137) with sat_distance by (unfold sat_distance; lra).
  split.
  - intros (Bx & By & _ & c & e & n & d & [(_ & -> & -> & ->)|(N & _)] & D & X & Y & Z); [|discriminate].
    split; [exact Bx|]. split; [exact By|]. exists d. rewrite X, Y. repeat split; auto.
    + ring_simplify. replace (cos l ^ 2) with (1 - sin l * sin l) by (rewrite <- C; ring). ring.
    + transitivity (d * sin x * (cos l * cos l + sin l * sin l)); [ring|]. rewrite C. ring.
  - intros (Bx & By & d & D & X & Y & Z). split; [exact Bx|]. split; [exact By|]. split; [reflexivity|].
    exists (cos x * cos y), (sin x), (cos x * sin y), d. split; [left; auto|]. split; [exact D|]. repeat split; auto.
    + transitivity ((px P * cos l + py P * sin l) * cos l - (py P * cos l - px P * sin l) * sin l).
      * ring_simplify. replace (cos l ^ 2) with (1 - sin l * sin l) by (rewrite <- C; ring). ring.
      * rewrite X, Y. ring.
    + transitivity ((px P * cos l + py P * sin l) * sin l + (py P * cos l - px P * sin l) * cos l).
      * ring_simplify. replace (cos l ^ 2) with (1 - sin l * sin l) by (rewrite <- C; ring). ring.
      * rewrite X, Y. ring.
Qed.

Lemma turned_located : forall a b lon lat nadir P, located a b lon lat 0 P -> located a b lon lat nadir (turned nadir P).
Proof.
  intros a b lon lat nadir P (L & phi & G & B & r & R0 & X & Y & Z). split.
  - unfold level, turned in *. cbn [px py pz]. set (l := degrees nadir). pose proof (cs l) as C.
    rewrite <- L. transitivity ((px P * px P + py P * py P) * (cos l * cos l + sin l * sin l) * (/ a * / a) + (pz P / b) ^ 2).
    + unfold Rdiv. ring.
    + rewrite C. unfold Rdiv. ring.
  - exists phi. split; [exact G|]. split; [exact B|]. exists r. split; [exact R0|]. unfold turned. cbn [px py pz].
    replace (degrees (lon - nadir)) with (degrees (lon - 0) - degrees nadir) by (unfold degrees; field).
    rewrite cos_minus, sin_minus, X, Y. repeat split; try ring. exact Z.
Qed.

Lemma turned_turns : forall a b P, same_longitude a b -> turned a P = turned b P.
Proof.
  intros a b P (k & ->). unfold turned.
  replace (degrees (b + 360 * IZR k)) with (degrees b + 2 * IZR k * PI) by (unfold degrees; field).
  rewrite cos_2PI_Z, sin_2PI_Z. reflexivity.
Qed.

Lemma revision_model : forall asked time r, valid_from 1 time -> revision asked time r -> dataset_ellipse_rev asked time = r.
Proof.
  intros asked time r V H. destruct (C19_dataset_revision asked time V) as (A & B & C).
  destruct H as [(K & ->)|(K & [(T & ->)|(T & ->)])]; auto.
Qed.
Lemma map_res_nth : forall A B (f : A -> res B) l bs, map_res f l = Ok bs ->
  List.length bs = List.length l /\ forall n x, nth_error l n = Some x -> exists y, nth_error bs n = Some y /\ f x = Ok y.
Proof.
  induction l as [|h l IH]; intros bs H; cbn [map_res] in H.
  - injection H as <-. split; [reflexivity|]. intros [|n] x E; discriminate.
  - destruct (f h) as [b|] eqn:F; [|discriminate]. cbn [bind] in H. destruct (map_res f l) as [bs'|] eqn:M; [|discriminate].
    cbn [bind] in H. injection H as <-. destruct (IH bs' eq_refl) as (L & N). split; [cbn; lia|].
    intros [|n] x E; cbn in E |- *; [injection E as <-; exists b; auto|auto].
Qed.
Lemma map_res_total : forall A B (f : A -> res B) l, (forall x, exists y, f x = Ok y) -> exists bs, map_res f l = Ok bs.
Proof.
  intros A B f l F. induction l as [|h l (bs & IH)]; [exists []; reflexivity|].
  destruct (F h) as (b & E). exists (b :: bs). cbn [map_res]. rewrite E. cbn [bind]. rewrite IH. reflexivity.
Qed.
Lemma navigate_ok : forall nadir r a b places, ellipsoid_of r a b -> exists angles, navigate nadir r places = Ok angles.
Proof.
  intros nadir r a b places HE. destruct (rev_ok _ _ _ HE) as (_ & _ & _ & M). unfold navigate.
  assert (K : exists ab, lightning_ellipse_rev r = Ok ab).
  { destruct HE as [(-> & _)|(-> & _)]; cbn; eauto. }
  destruct K as (ab & ->). cbn [bind]. apply map_res_total. intros [lo la]. rewrite M. eauto.
Qed.
Lemma navigate_nth : forall nadir r places angles, navigate nadir r places = Ok angles ->
  List.length angles = List.length places /\
  forall n lon lat, nth_error places n = Some (lon, lat) ->
  exists u v, nth_error angles n = Some (u, v) /\ ltg_ellps_lon_lat_to_fixed_grid lon lat nadir r = Ok (u, v).
Proof.
  intros nadir r places angles H. unfold navigate in H. destruct (lightning_ellipse_rev r); [|discriminate]. cbn [bind] in H.
  destruct (map_res_nth _ _ _ _ _ H) as (L & N). split; [exact L|]. intros n lon lat E.
  destruct (N n _ E) as ([u v] & A & B). exists u, v. auto.
Qed.

Definition positions (f : datafile) : list (list (R * R)) := [df_events f; df_groups f; df_flashes f].
Lemma init_nth : forall asked f ev gr fl, init_fixed_grid_data asked f = Ok (ev, gr, fl) ->
  forall places angles, In (places, angles) (combine (positions f) [ev; gr; fl]) ->
  navigate (df_nadir f) (dataset_ellipse_rev asked (df_time f)) places = Ok angles.
Proof.
  intros asked f ev gr fl H places angles I. unfold init_fixed_grid_data in H.
  destruct (navigate _ _ (df_events f)) as [e|] eqn:E1; [|discriminate]. cbn [bind] in H.
  destruct (navigate _ _ (df_groups f)) as [g|] eqn:E2; [|discriminate]. cbn [bind] in H.
  destruct (navigate _ _ (df_flashes f)) as [h|] eqn:E3; [|discriminate]. cbn [bind] in H. injection H as <- <- <-.
  cbn [positions combine In] in I. destruct I as [I|[I|[I|[]]]]; injection I as <- <-; assumption.
Qed.

(** * Theorems *)
(** If the images are made for the satellite of the data, then the projection variable puts
    every event, group and flash of an opened file, by the coordinates that the file is given,
    on the line of sight to its point of the lightning ellipsoid; no other coordinates do. *)
Theorem C92_line_of_sight_partial : forall subpoint run x y asked r f a b,
  (forall lon, same_longitude (subpoint lon) lon) -> same_longitude run (df_nadir f) ->
  valid_from 1 (df_time f) -> revision asked (df_time f) r -> ellipsoid_of r a b ->
  exists ev gr fl, init_fixed_grid_data asked f = Ok (ev, gr, fl) /\
  List.length ev = List.length (df_events f) /\ List.length gr = List.length (df_groups f) /\ List.length fl = List.length (df_flashes f) /\
  forall places angles, In (places, angles) (combine (positions f) [ev; gr; fl]) ->
  forall n lon lat P, nth_error places n = Some (lon, lat) -> located a b lon lat 0 P ->
  forall u v, in_sight (gr_proj (image_georef subpoint run x y)) u v P <-> nth_error angles n = Some (u, v).
Proof.
  intros subpoint run x y asked r f a b HS SR V HR HE. pose proof (revision_model _ _ _ V HR) as M.
  destruct (navigate_ok (df_nadir f) r a b (df_events f) HE) as (ev & E1).
  destruct (navigate_ok (df_nadir f) r a b (df_groups f) HE) as (gr & E2).
  destruct (navigate_ok (df_nadir f) r a b (df_flashes f) HE) as (fl & E3).
  exists ev, gr, fl. assert (I : init_fixed_grid_data asked f = Ok (ev, gr, fl)).
  { unfold init_fixed_grid_data. rewrite M, E1. cbn [bind]. rewrite E2. cbn [bind]. rewrite E3. reflexivity. }
  split; [exact I|]. split; [apply (navigate_nth _ _ _ _ E1)|]. split; [apply (navigate_nth _ _ _ _ E2)|]. split; [apply (navigate_nth _ _ _ _ E3)|].
  intros places angles J n lon lat P N L u v. pose proof (init_nth _ _ _ _ _ I _ _ J) as NV. rewrite M in NV.
  destruct (navigate_nth _ _ _ _ NV) as (_ & NN). destruct (NN n lon lat N) as (u0 & v0 & NA & G). rewrite NA.
  cbn [image_georef new_goes_imagery_dataset gr_proj]. rewrite sight_turned.
  assert (T : same_longitude (subpoint run) (df_nadir f)).
  { destruct (HS run) as (k & Hk). destruct SR as (j & Hj). exists (k + j)%Z. rewrite plus_IZR, Hk, Hj. ring. }
  rewrite (turned_turns _ _ P T). rewrite <- (C20_line_of_sight r a b lon lat (df_nadir f) _ u v HE (turned_located _ _ _ _ _ _ L)).
  rewrite G. split; intro K; injection K as <- <-; reflexivity.
Qed.

(** Nothing checks that the images are made for the satellite of the data.  With another
    longitude, the image shows all lightning off the equator at places where it was not. *)
Theorem C92_other_satellite_refuted : forall subpoint run x y asked r f a b ev gr fl,
  (forall lon, same_longitude (subpoint lon) lon) -> ~ same_longitude run (df_nadir f) ->
  valid_from 1 (df_time f) -> revision asked (df_time f) r -> ellipsoid_of r a b ->
  init_fixed_grid_data asked f = Ok (ev, gr, fl) ->
  forall places angles, In (places, angles) (combine (positions f) [ev; gr; fl]) ->
  forall n lon lat P u v, nth_error places n = Some (lon, lat) -> -90 < lat < 90 -> lat <> 0 -> located a b lon lat 0 P ->
  nth_error angles n = Some (u, v) -> ~ in_sight (gr_proj (image_georef subpoint run x y)) u v P.
Proof.
  intros subpoint run x y asked r f a b ev gr fl HS SR V HR HE I places angles J n lon lat P u v N BL L0 L NA S.
  pose proof (revision_model _ _ _ V HR) as M. pose proof (init_nth _ _ _ _ _ I _ _ J) as NV. rewrite M in NV.
  destruct (navigate_nth _ _ _ _ NV) as (_ & NN). destruct (NN n lon lat N) as (u0 & v0 & NA2 & G).
  rewrite NA in NA2. injection NA2 as <- <-.
  apply (C20_line_of_sight r a b lon lat (df_nadir f) _ u v HE (turned_located _ _ _ _ _ _ L)) in G.
  cbn [image_georef new_goes_imagery_dataset gr_proj] in S. rewrite sight_turned, (turned_turns _ _ P (HS run)) in S.
  assert (PIp := PI_RGT_0).
  destruct L as (_ & phi & GC & B & q & Q0 & X & Y & Z).
  assert (Cp : 0 < cos phi) by (apply cos_gt_0; lra).
  assert (Zn : pz P <> 0).
  { intro Z0. rewrite Z in Z0. assert (SP : sin phi = 0) by nra.
    unfold geocentric_of in GC. unfold tan at 1 in GC. rewrite SP in GC. unfold Rdiv at 1 in GC. rewrite Rmult_0_l in GC.
    assert (TL : tan (degrees lat) = 0).
    { assert (0 < (grs80_b / grs80_a) ^ 2) by (unfold grs80_a, grs80_b; apply pow_lt; lra). nra. }
    assert (DL : - (PI / 2) < degrees lat < PI / 2) by (unfold degrees; split; nra).
    assert (degrees lat = 0) by (apply tan_inj; [lra|lra|rewrite tan_0; exact TL]).
    apply L0. unfold degrees in H. nra. }
  destruct S as (_ & _ & d & D0 & X1 & Y1 & Z1). destruct G as (_ & _ & d2 & D2 & X2 & Y2 & Z2).
  cbn [turned pz px py] in *.
  assert (d = d2).
  { assert (K : (d - d2) * (cos u * sin v) = 0) by lra. apply Rmult_integral in K. destruct K as [K|K]; [lra|].
    exfalso. rewrite K in Z1. lra. }
  subst d2.
  set (l1 := degrees run) in *. set (l2 := degrees (df_nadir f)) in *.
  assert (EX : px P * cos l1 + py P * sin l1 = px P * cos l2 + py P * sin l2) by lra.
  assert (EY : py P * cos l1 - px P * sin l1 = py P * cos l2 - px P * sin l2) by lra.
  assert (RR : 0 < px P * px P + py P * py P).
  { rewrite X, Y. set (m := degrees (lon - 0)). pose proof (cs m). replace (q * (cos phi * cos m) * (q * (cos phi * cos m)) + q * (cos phi * sin m) * (q * (cos phi * sin m)))
      with ((q * cos phi) * (q * cos phi) * (cos m * cos m + sin m * sin m)) by ring. rewrite H. assert (0 < q * cos phi) by nra. nra. }
  assert (C1 : cos (l1 - l2) = 1).
  { rewrite cos_minus. pose proof (cs l2) as C2.
    assert (K : (px P * px P + py P * py P) * (cos l1 * cos l2 + sin l1 * sin l2)
              = (px P * cos l1 + py P * sin l1) * (px P * cos l2 + py P * sin l2) + (py P * cos l1 - px P * sin l1) * (py P * cos l2 - px P * sin l2)) by ring.
    rewrite EX, EY in K.
    assert (K2 : (px P * cos l2 + py P * sin l2) * (px P * cos l2 + py P * sin l2) + (py P * cos l2 - px P * sin l2) * (py P * cos l2 - px P * sin l2)
              = (px P * px P + py P * py P) * (cos l2 * cos l2 + sin l2 * sin l2)) by ring.
    rewrite K2, C2 in K. apply Rmult_eq_reg_l with (px P * px P + py P * py P); [|lra]. rewrite K. ring. }
  destruct (cos_1_turns _ C1) as (k & Hk). apply SR. exists k. unfold l1, l2, degrees in Hk.
  assert (E : (run - df_nadir f) * PI = 360 * IZR k * PI) by lra.
  apply Rmult_eq_reg_r in E; [lra|lra].
Qed.

(** The numbers in a file agree with each other: subpoint and origin are the same place on the
    equator, the flattening is that of the two radii, the coordinates are those of the grid with
    north up, and there is one quality flag per pixel, of those listed. *)
Theorem C92_consistent_variables : forall subpoint run x y, let g := image_georef subpoint run x y in
  gr_subpoint g = (pr_lon_origin (gr_proj g), pr_lat_origin (gr_proj g)) /\ pr_lat_origin (gr_proj g) = 0 /\
  Rabs (pr_major (gr_proj g) / (pr_major (gr_proj g) - pr_minor (gr_proj g)) - pr_inverse_flattening (gr_proj g)) < / 100000000 /\
  gr_x g = x /\ gr_y g = rev y /\
  List.length (q_flags (gr_quality g)) = List.length (gr_y g) /\
  (forall row, In row (q_flags (gr_quality g)) -> List.length row = List.length (gr_x g) /\ forall q, In q row -> In q (q_values (gr_quality g))).
Proof.
  intros subpoint run x y g. unfold g. cbn [image_georef new_goes_imagery_dataset gr_proj gr_subpoint gr_quality gr_x gr_y get_goes_imager_proj get_goes_imager_subpoint_vars get_goes_imager_all_valid_dqf
    pr_lon_origin pr_lat_origin pr_major pr_minor pr_inverse_flattening q_flags q_values].
  split; [reflexivity|]. split; [reflexivity|]. split; [apply Rabs_def1; lra|]. split; [reflexivity|]. split; [reflexivity|].
  split; [apply repeat_length|]. intros row I. apply repeat_spec in I. subst row. split; [apply repeat_length|].
  intros q I. apply repeat_spec in I. subst q. left. reflexivity.
Qed.

(** The number of flag values that is written is never the number of values listed. *)
Theorem C92_flag_number_refuted : forall subpoint run x y, let q := gr_quality (image_georef subpoint run x y) in
  q_number q <> Z.of_nat (List.length (q_values q)).
Proof. intros. cbn. discriminate. Qed.

(** * The hypotheses can be met *)
Definition ex_file : datafile := mkData (-75) (mkDT 2020 100 12 0 0 0) [(-100, 30); (-60, -20)] [(-100, 30)] [(-90, 0)].
Example C92_hypotheses :
  valid_from 1 (df_time ex_file) /\ revision (-1) (df_time ex_file) 1 /\ ellipsoid_of 1 6392137 6362755 /\
  same_longitude 285 (df_nadir ex_file) /\ ~ same_longitude (-137) (df_nadir ex_file) /\
  (exists P, located 6392137 6362755 (-100) 30 0 P) /\ (forall lon, same_longitude ((fun l => l) lon) lon).
Proof.
  split; [constructor; cbn; lia|]. split; [right; split; [lia|right; split; [vm_compute; discriminate|reflexivity]]|].
  split; [right; repeat split; lra|]. split; [exists 1%Z; cbn [df_nadir ex_file]; lra|]. split.
  - intros (k & E). cbn [df_nadir ex_file] in E. assert (F : IZR (360 * k) = IZR (-62)) by (rewrite mult_IZR; lra). apply eq_IZR in F. lia.
  - split.
    + destruct (C20_every_location 1 6392137 6362755 (-100) 30 0) as (P & _ & _ & L & _); [right; repeat split; lra|eauto].
    + intro lon. exists 0%Z. cbn. lra.
Qed.

Print Assumptions C92_line_of_sight_partial.
Print Assumptions C92_other_satellite_refuted.
Print Assumptions C92_consistent_variables.
Print Assumptions C92_flag_number_refuted.
