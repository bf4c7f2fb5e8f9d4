(** C19-C22, C55: lightning ellipsoids and fixed grid navigation. *)
From Coq Require Import ZArith Bool Reals Lra Lia Psatz.
From Verif Require Import Base FileName FileNameSpec FileNameProofs Ellipse EllipseSpec EllipseProofs.
Open Scope R_scope.

(** ** C19: revisions *)
Lemma dt_ltb_instant : forall d1 d2, valid_from 1 d1 -> valid_from 1 d2 ->
  dt_ltb d1 d2 = (instant d1 <? instant d2)%Z.
Proof.
  intros d1 d2 V1 V2.
  assert (E : Z.compare (instant d1) (instant d2)
    = match Z.compare (dt_year d1) (dt_year d2) with Eq =>
      match Z.compare (dt_yday d1) (dt_yday d2) with Eq =>
      match Z.compare (dt_hour d1) (dt_hour d2) with Eq =>
      match Z.compare (dt_min d1) (dt_min d2) with Eq =>
      match Z.compare (dt_sec d1) (dt_sec d2) with Eq => Z.compare (dt_us d1) (dt_us d2)
      | c => c end | c => c end | c => c end | c => c end | c => c end).
  { unfold instant. pose proof (day_compare d1 d2 V1 V2) as DC. destruct V1, V2.
    rewrite compare_scale by lia. rewrite compare_scale by lia. rewrite compare_scale by lia.
    rewrite compare_scale by lia. rewrite DC.
    destruct (Z.compare (dt_year d1) (dt_year d2)); auto.
    destruct (Z.compare (dt_yday d1) (dt_yday d2)); auto.
    destruct (Z.compare (dt_hour d1) (dt_hour d2)); auto.
    destruct (Z.compare (dt_min d1) (dt_min d2)); auto. }
  unfold Z.ltb at 1. rewrite E. unfold dt_ltb.
  unfold Z.ltb.
  repeat match goal with
  | |- context [Z.compare ?a ?b] => destruct (Z.compare_spec a b)
  end; try subst; rewrite ?Z.eqb_refl; cbn;
  repeat match goal with
  | H : ?a = ?b |- context [Z.eqb ?a ?b] => rewrite (proj2 (Z.eqb_eq a b) H)
  | H : (?a < ?b)%Z |- context [Z.eqb ?a ?b] => rewrite (proj2 (Z.eqb_neq a b) ltac:(lia))
  | H : (?b < ?a)%Z |- context [Z.eqb ?a ?b] => rewrite (proj2 (Z.eqb_neq a b) ltac:(lia))
  end; cbn; reflexivity.
Qed.

(** Midnight at the start of October 15, 2018 (31+28+31+30+31+30+31+31+30 = 273
    days of the year come before October). *)
Definition revision_date : datetime := mkDT 2018 (31+28+31+30+31+30+31+31+30 + 15) 0 0 0 0.

Theorem C19_revision_step_partial : forall d, valid_from 1 d ->
  ((instant d < instant revision_date)%Z -> ltg_ellpse_rev d = 0%Z) /\
  ((instant revision_date <= instant d)%Z -> ltg_ellpse_rev d = 1%Z).
Proof.
  intros d V. unfold ltg_ellpse_rev.
  assert (V2 : valid_from 1 (mkDT 2018 288 0 0 0 0)) by (constructor; cbn; lia).
  rewrite dt_ltb_instant by assumption.
  change (instant revision_date) with (instant (mkDT 2018 288 0 0 0 0)).
  destruct (Z.ltb_spec (instant d) (instant (mkDT 2018 288 0 0 0 0))); split; intros; lia.
Qed.

(** A dataset opened without naming a revision uses the one of its product time;
    otherwise the one named. *)
Theorem C19_dataset_revision : forall rev d, valid_from 1 d ->
  ((rev < 0)%Z -> (instant d < instant revision_date)%Z -> dataset_ellipse_rev rev d = 0%Z) /\
  ((rev < 0)%Z -> (instant revision_date <= instant d)%Z -> dataset_ellipse_rev rev d = 1%Z) /\
  ((0 <= rev)%Z -> dataset_ellipse_rev rev d = rev).
Proof.
  intros rev d V. unfold dataset_ellipse_rev.
  assert (V2 : valid_from 1 (mkDT (dt_year d) (dt_yday d) (dt_hour d) (dt_min d) (dt_sec d) 0))
    by (destruct V; constructor; cbn; auto; lia).
  destruct (C19_revision_step_partial _ V2) as [A B].
  assert (I : (instant revision_date mod 1000000 = 0)%Z) by reflexivity.
  assert (J : (instant (mkDT (dt_year d) (dt_yday d) (dt_hour d) (dt_min d) (dt_sec d) 0)
               = instant d - dt_us d)%Z) by (unfold instant; cbn; lia).
  rewrite J in A, B.
  assert (K : ((instant d - dt_us d) mod 1000000 = 0)%Z).
  { rewrite <- J. unfold instant. cbn [dt_us]. rewrite Z.add_0_r. apply Z.mod_mul. lia. }
  destruct V as [w1 w2 w3 w4 w5 w6 w7].
  destruct (Z.ltb_spec rev 0) as [N|N]; (split; [|split]); intros; try (exfalso; lia).
  - apply A. lia.
  - apply B. apply Z.mod_divide in I; [|lia]. apply Z.mod_divide in K; [|lia].
    destruct I as [i I], K as [k K]. lia.
  - reflexivity.
Qed.

(** The convenience function for the radii never returns: it calls a function of
    a name that does not exist. *)
Theorem C19_radii_refuted : forall d, ltg_ellps_radii d = Err NameError.
Proof. reflexivity. Qed.

Example C19_ex :
  ltg_ellpse_rev (mkDT 2018 287 23 59 59 999999) = 0%Z /\ ltg_ellpse_rev (mkDT 2018 288 0 0 0 0) = 1%Z /\
  dataset_ellipse_rev (-1) (mkDT 2018 287 23 59 59 999999) = 0%Z.
Proof. repeat split; reflexivity. Qed.

(** ** C20: navigation *)

(** Radii in metres of the lightning ellipsoids: at launch 6394.140 and 6362.755
    km; revision 1 has its equator 14 km above GRS80. *)
Definition ellipsoid_of (rev : Z) (a b : R) : Prop :=
  (rev = 0%Z /\ a = 6394140 /\ b = 6362755) \/ (rev = 1%Z /\ a = 6392137 /\ b = 6362755).
(** GRS80, and the distance of the satellite to the centre of the earth. *)
Definition grs80_a : R := 6378137.
Definition grs80_b : R := 6356752.31414.
Definition sat_distance : R := 42164160.
Definition degrees (d : R) : R := d * PI / 180.

(** The point of the lightning ellipsoid that a longitude and a latitude name:
    its direction from the centre of the earth is the direction of the point of
    GRS80 at sea level whose geodetic latitude is [lat]. *)
Definition located (a b lon lat sat_lon : R) (p : point) : Prop :=
  level a b p = 1 /\
  exists phi, geocentric_of grs80_a grs80_b (degrees lat) phi /\ towards phi (degrees (lon - sat_lon)) p.

Lemma rev_ok : forall rev a b, ellipsoid_of rev a b ->
  0 < b /\ 0 < a /\ a < sat_grs80_height + re_grs80 /\
  forall lon lat sat, ltg_ellps_lon_lat_to_fixed_grid lon lat sat rev
    = Ok (fixed_grid_angles a b re_grs80 rp_grs80 sat_grs80_height lon lat sat).
Proof.
  intros rev a b [[-> [-> ->]]|[-> [-> ->]]]; unfold sat_grs80_height, re_grs80;
    (split; [lra|]; split; [lra|]; split; [lra|]); intros lon lat sat;
    unfold ltg_ellps_lon_lat_to_fixed_grid, lightning_ellipse_rev; [reflexivity|].
  replace (6378137 + 14000) with 6392137 by lra. reflexivity.
Qed.

Lemma rpg : rp_grs80 = grs80_b.
Proof. unfold rp_grs80, grs80_b. lra. Qed.
Lemma dist : sat_grs80_height + re_grs80 = sat_distance.
Proof. unfold sat_grs80_height, re_grs80, sat_distance. lra. Qed.
Lemma rpg_pos : 0 < rp_grs80. Proof. unfold rp_grs80. lra. Qed.
Lemma reg_pos : 0 < re_grs80. Proof. unfold re_grs80. lra. Qed.

Lemma pt_located : forall a b lon lat sat, 0 < b -> 0 < a -> a < sat_grs80_height + re_grs80 ->
  located a b lon lat sat (pt_of a b re_grs80 rp_grs80 lon lat sat).
Proof.
  intros a b lon lat sat Hb Ha Hh. split; [apply pt_level; auto|].
  exists (phi_of re_grs80 rp_grs80 lat). split.
  - rewrite <- rpg. apply (phi_geocentric re_grs80 rp_grs80 lat reg_pos).
  - destruct (pt_towards a b re_grs80 rp_grs80 lon lat sat Hb Ha) as [B [r [P [X [Y Z]]]]]; auto.
    split; [exact B|]. exists r. split; [exact P|].
    rewrite wrap_cos in X. rewrite wrap_sin in Y. auto.
Qed.

Lemma located_unique : forall a b lon lat sat p q, 0 < b -> 0 < a ->
  located a b lon lat sat p -> located a b lon lat sat q -> p = q.
Proof.
  intros a b lon lat sat p q Hb Ha [Lp [f [Gf [Bf [r [Pr [Xp [Yp Zp]]]]]]]] [Lq [g [Gg [Bg [s [Ps [Xq [Yq Zq]]]]]]]].
  assert (f = g).
  { unfold geocentric_of in *. apply tan_inj; [lra|lra|congruence]. }
  subst g. unfold level in Lp, Lq. rewrite Xp, Yp, Zp in Lp. rewrite Xq, Yq, Zq in Lq.
  set (K := (cos f / a) ^ 2 + (sin f / b) ^ 2).
  set (l := degrees (lon - sat)) in *.
  pose proof (sin2_cos2 l) as T. unfold Rsqr in T.
  assert (E : forall r, (r * (cos f * cos l) / a) ^ 2 + (r * (cos f * sin l) / a) ^ 2 + (r * sin f / b) ^ 2 = r * r * K).
  { intro t. unfold K. transitivity (t * t * ((cos f / a) ^ 2 * (sin l * sin l + cos l * cos l) + (sin f / b) ^ 2)).
    - field. lra.
    - rewrite T. ring. }
  rewrite E in Lp, Lq.
  assert (Kp : 0 < K) by nra.
  assert (r * r = s * s) by (apply Rmult_eq_reg_r with K; lra).
  assert (r = s) by nra. subst s.
  destruct p as [x y z], q as [x2 y2 z2]; cbn [px py pz] in *. f_equal; congruence.
Qed.

(** The angles returned for a longitude and latitude are exactly those under which
    the satellite sees the point of the lightning ellipsoid they name. *)
Theorem C20_line_of_sight : forall rev a b lon lat sat_lon p beta alpha,
  ellipsoid_of rev a b -> located a b lon lat sat_lon p ->
  ltg_ellps_lon_lat_to_fixed_grid lon lat sat_lon rev = Ok (beta, alpha)
  <-> seen_at sat_distance beta alpha p.
Proof.
  intros rev a b lon lat sat p beta alpha HE HL.
  destruct (rev_ok _ _ _ HE) as [Hb [Ha [Hh M]]]. rewrite M.
  rewrite (located_unique a b lon lat sat p (pt_of a b re_grs80 rp_grs80 lon lat sat) Hb Ha HL
             (pt_located a b lon lat sat Hb Ha Hh)).
  destruct (fixed_grid_angles a b re_grs80 rp_grs80 sat_grs80_height lon lat sat) as [b0 a0] eqn:F.
  pose proof (pt_seen a b re_grs80 rp_grs80 sat_grs80_height lon lat sat Hb Ha Hh _ _ F) as S.
  rewrite dist in S. split.
  - intro E. injection E as <- <-. exact S.
  - intro S2. destruct (seen_unique _ _ _ _ _ _ S S2) as [-> ->]. reflexivity.
Qed.

(** There is such a point, and the call succeeds, for every longitude and latitude;
    unknown revisions raise KeyError. *)
Theorem C20_every_location : forall rev a b lon lat sat_lon, ellipsoid_of rev a b ->
  exists p beta alpha, located a b lon lat sat_lon p /\
    ltg_ellps_lon_lat_to_fixed_grid lon lat sat_lon rev = Ok (beta, alpha).
Proof.
  intros rev a b lon lat sat HE.
  destruct (rev_ok _ _ _ HE) as [Hb [Ha [Hh M]]]. rewrite M.
  destruct (fixed_grid_angles a b re_grs80 rp_grs80 sat_grs80_height lon lat sat) as [b0 a0] eqn:F.
  exists (pt_of a b re_grs80 rp_grs80 lon lat sat), b0, a0. split; [apply pt_located; auto|reflexivity].
Qed.

Theorem C20_unknown_revision : forall lon lat sat_lon rev, rev <> 0%Z -> rev <> 1%Z ->
  ltg_ellps_lon_lat_to_fixed_grid lon lat sat_lon rev = Err KeyError.
Proof.
  intros lon lat sat rev N0 N1. unfold ltg_ellps_lon_lat_to_fixed_grid, lightning_ellipse_rev.
  destruct rev as [|[p|p|]|p]; try reflexivity; contradiction.
Qed.

(** The point so named is not where the lightning ellipsoid itself has that
    geodetic latitude, except on the equator. *)
Theorem C20_not_geodetic_on_lightning_ellipsoid : forall rev a b lon lat sat_lon p,
  ellipsoid_of rev a b -> -90 < lat < 90 -> lat <> 0 ->
  located a b lon lat sat_lon p -> ~ geodetic_latitude a b (degrees lat) p.
Proof.
  intros rev a b lon lat sat p HE B N [L [phi [G [Bp [r [Pr [X [Y Z]]]]]]]] [n [Pn [Ez [Exy C]]]].
  assert (PIp := PI_RGT_0).
  assert (Dl : - (PI / 2) < degrees lat < PI / 2) by (unfold degrees; split; nra).
  assert (Cl : 0 < cos (degrees lat)) by (apply cos_gt_0; lra).
  assert (Cp : 0 < cos phi) by (apply cos_gt_0; lra).
  assert (Hab : 0 < a /\ 0 < b) by (destruct HE as [[_ [-> ->]]|[_ [-> ->]]]; lra). destruct Hab as [Ha Hb].
  assert (Sl : sin (degrees lat) <> 0).
  { intro E. apply N. assert (degrees lat = 0).
    { apply sin_inj; [lra|lra|]. rewrite sin_0. exact E. }
    unfold degrees in H. nra. }
  pose proof (sin2_cos2 (degrees (lon - sat))) as T. unfold Rsqr in T.
  assert (Q : (r * cos phi / (a * a)) * (r * cos phi / (a * a)) = (n * cos (degrees lat)) * (n * cos (degrees lat))).
  { transitivity ((px p / a ^ 2) ^ 2 + (py p / a ^ 2) ^ 2); [|rewrite Exy; ring].
    rewrite X, Y. transitivity ((r * cos phi / (a * a)) * (r * cos phi / (a * a))
      * (sin (degrees (lon - sat)) * sin (degrees (lon - sat)) + cos (degrees (lon - sat)) * cos (degrees (lon - sat)))).
    - rewrite T. ring.
    - field. lra. }
  assert (Qp : 0 < r * cos phi / (a * a)) by (apply Rdiv_lt_0_compat; nra).
  assert (Qn : 0 < n * cos (degrees lat)) by (apply Rmult_lt_0_compat; assumption).
  assert (E1 : r * cos phi / (a * a) = n * cos (degrees lat)) by nra.
  assert (E2 : r * sin phi / (b * b) = n * sin (degrees lat)).
  { rewrite <- Ez, Z. field. lra. }
  unfold geocentric_of, tan in G.
  assert (G2 : sin phi * cos (degrees lat) = (grs80_b / grs80_a) ^ 2 * (sin (degrees lat) * cos phi)).
  { transitivity (sin phi / cos phi * (cos phi * cos (degrees lat))); [field; lra|].
    rewrite G. field. unfold grs80_a. lra. }
  (* tan geod = (a/b)^2 tan phi *)
  assert (E3 : sin phi * (a * a) * cos (degrees lat) = sin (degrees lat) * (b * b) * cos phi).
  { assert (r * sin phi = n * sin (degrees lat) * (b * b)) by (rewrite <- E2; field; lra).
    assert (r * cos phi = n * cos (degrees lat) * (a * a)) by (rewrite <- E1; field; lra).
    apply Rmult_eq_reg_l with (r * n); [|nra].
    transitivity ((r * sin phi) * (n * cos (degrees lat) * (a * a))); [ring|].
    rewrite H, <- H0. ring. }
  assert (E4 : ((grs80_b / grs80_a) ^ 2 * (a * a) - b * b) * (sin (degrees lat) * cos phi) = 0).
  { replace (((grs80_b / grs80_a) ^ 2 * (a * a) - b * b) * (sin (degrees lat) * cos phi))
      with (((grs80_b / grs80_a) ^ 2 * (sin (degrees lat) * cos phi)) * (a * a) - sin (degrees lat) * (b * b) * cos phi) by ring.
    rewrite <- G2, <- E3. ring. }
  apply Rmult_integral in E4. destruct E4 as [E4|E4].
  - unfold grs80_a, grs80_b in E4. destruct HE as [[_ [-> ->]]|[_ [-> ->]]]; lra.
  - apply Rmult_integral in E4. destruct E4; [contradiction|lra].
Qed.

Example C20_ex : exists p, located 6394140 6362755 (-45) 30 (-75) p /\ px p <> 0 /\ pz p <> 0.
Proof.
  exists (pt_of 6394140 6362755 re_grs80 rp_grs80 (-45) 30 (-75)).
  split; [apply pt_located; unfold sat_grs80_height, re_grs80; lra|].
  assert (Cp := cos_phi re_grs80 rp_grs80 30).
  assert (Rp : 0 < rad_of 6394140 6362755 re_grs80 rp_grs80 30) by (apply rad_pos; lra).
  assert (PIp := PI_RGT_0).
  unfold pt_of; cbn [px py pz]. split.
  - rewrite wrap_cos. replace (radians (-45 - -75)) with (PI / 6) by (unfold radians; field).
    assert (0 < cos (PI / 6)) by (apply cos_gt_0; lra).
    apply Rgt_not_eq. apply Rmult_lt_0_compat; [apply Rmult_lt_0_compat|]; assumption.
  - apply Rgt_not_eq. apply Rmult_lt_0_compat; auto. apply sin_gt_0.
    + unfold phi_of. rewrite <- atan_0. apply atan_increasing.
      replace (radians 30) with (PI / 6) by (unfold radians; field).
      apply Rmult_lt_0_compat.
      * unfold re_grs80, rp_grs80. nra.
      * apply tan_gt_0; lra.
    + pose proof (phi_bound re_grs80 rp_grs80 30). lra.
Qed.

(** ** C21: symmetries *)
Theorem C21_subsatellite_point : forall rev a b sat_lon, ellipsoid_of rev a b ->
  ltg_ellps_lon_lat_to_fixed_grid sat_lon 0 sat_lon rev = Ok (0, 0).
Proof.
  intros rev a b sat HE. destruct (rev_ok _ _ _ HE) as [Hb [Ha [Hh M]]].
  assert (P : located a b sat 0 sat (mkPt a 0 0)).
  { split.
    - unfold level; cbn [px py pz]. field. lra.
    - exists 0. unfold geocentric_of, degrees. replace (0 * PI / 180) with 0 by field.
      replace ((sat - sat) * PI / 180) with 0 by field. rewrite tan_0. split; [ring|].
      pose proof PI_RGT_0. split; [lra|]. exists a. cbn [px py pz].
      rewrite cos_0, sin_0. repeat split; try lra; ring. }
  apply (C20_line_of_sight rev a b sat 0 sat _ 0 0 HE P).
  pose proof PI_RGT_0. unfold seen_at. rewrite cos_0, sin_0. cbn [px py pz].
  split; [lra|]. split; [lra|]. exists (sat_distance - a). rewrite <- dist. repeat split; lra.
Qed.

Lemma located_mirror_lat : forall a b lon lat sat p, located a b lon lat sat p ->
  located a b lon (- lat) sat (mkPt (px p) (py p) (- pz p)).
Proof.
  intros a b lon lat sat p [L [phi [G [B [r [P [X [Y Z]]]]]]]]. split.
  - unfold level in *. cbn [px py pz]. replace ((- pz p / b) ^ 2) with ((pz p / b) ^ 2); [exact L|].
    unfold Rdiv. ring.
  - exists (- phi). split.
    + unfold geocentric_of in *. replace (degrees (- lat)) with (- degrees lat) by (unfold degrees; field).
      rewrite !tan_neg, G. ring.
    + split; [lra|]. exists r. rewrite cos_neg, sin_neg. cbn [px py pz]. repeat split; auto. rewrite Z. ring.
Qed.

Lemma located_mirror_lon : forall a b off lat sat p, located a b (sat + off) lat sat p ->
  located a b (sat - off) lat sat (mkPt (px p) (- py p) (pz p)).
Proof.
  intros a b off lat sat p [L [phi [G [B [r [P [X [Y Z]]]]]]]]. split.
  - unfold level in *. cbn [px py pz]. replace ((- py p / a) ^ 2) with ((py p / a) ^ 2); [exact L|].
    unfold Rdiv. ring.
  - exists phi. split; [exact G|]. split; [exact B|]. exists r.
    replace (degrees (sat - off - sat)) with (- degrees (sat + off - sat)) by (unfold degrees; field).
    rewrite cos_neg, sin_neg. cbn [px py pz]. repeat split; auto. rewrite Y. ring.
Qed.

Theorem C21_mirror_latitude : forall rev lon lat sat_lon beta alpha,
  ltg_ellps_lon_lat_to_fixed_grid lon lat sat_lon rev = Ok (beta, alpha) ->
  ltg_ellps_lon_lat_to_fixed_grid lon (- lat) sat_lon rev = Ok (beta, - alpha).
Proof.
  intros rev lon lat sat beta alpha H.
  assert (E : exists a b, ellipsoid_of rev a b).
  { destruct (Z.eq_dec rev 0) as [->|N0]; [exists 6394140, 6362755; left; auto|].
    destruct (Z.eq_dec rev 1) as [->|N1]; [exists 6392137, 6362755; right; auto|].
    rewrite C20_unknown_revision in H by assumption. discriminate. }
  destruct E as [a [b HE]].
  destruct (C20_every_location rev a b lon lat sat HE) as [p [b0 [a0 [P _]]]].
  apply (C20_line_of_sight rev a b lon lat sat p beta alpha HE P) in H.
  apply (C20_line_of_sight rev a b _ _ _ _ beta (- alpha) HE (located_mirror_lat _ _ _ _ _ _ P)).
  destruct H as [B [A [d [D [X [Y Z]]]]]]. split; [exact B|]. split; [lra|].
  exists d. rewrite cos_neg, sin_neg. cbn [px py pz]. repeat split; auto. rewrite Z. ring.
Qed.

Theorem C21_mirror_longitude : forall rev off lat sat_lon beta alpha,
  ltg_ellps_lon_lat_to_fixed_grid (sat_lon + off) lat sat_lon rev = Ok (beta, alpha) ->
  ltg_ellps_lon_lat_to_fixed_grid (sat_lon - off) lat sat_lon rev = Ok (- beta, alpha).
Proof.
  intros rev off lat sat beta alpha H.
  assert (E : exists a b, ellipsoid_of rev a b).
  { destruct (Z.eq_dec rev 0) as [->|N0]; [exists 6394140, 6362755; left; auto|].
    destruct (Z.eq_dec rev 1) as [->|N1]; [exists 6392137, 6362755; right; auto|].
    rewrite C20_unknown_revision in H by assumption. discriminate. }
  destruct E as [a [b HE]].
  destruct (C20_every_location rev a b (sat + off) lat sat HE) as [p [b0 [a0 [P _]]]].
  apply (C20_line_of_sight rev a b _ lat sat p beta alpha HE P) in H.
  apply (C20_line_of_sight rev a b _ _ _ _ (- beta) alpha HE (located_mirror_lon _ _ _ _ _ _ P)).
  destruct H as [B [A [d [D [X [Y Z]]]]]]. split; [lra|]. split; [exact A|].
  exists d. rewrite cos_neg, sin_neg. cbn [px py pz]. repeat split; auto. rewrite Y. ring.
Qed.

(** Any number of whole turns: the wrap of the offset does not matter. *)
Theorem C21_whole_turns : forall rev lon lat sat_lon k,
  ltg_ellps_lon_lat_to_fixed_grid (lon + 360 * IZR k) lat sat_lon rev
  = ltg_ellps_lon_lat_to_fixed_grid lon lat sat_lon rev.
Proof.
  intros rev lon lat sat k. unfold ltg_ellps_lon_lat_to_fixed_grid.
  destruct (lightning_ellipse_rev rev) as [[a b]|e]; [|reflexivity]. f_equal.
  unfold fixed_grid_angles. rewrite !wrap_cos, !wrap_sin.
  replace (radians (lon + 360 * IZR k - sat)) with (radians (lon - sat) + 2 * IZR k * PI)
    by (unfold radians; field).
  rewrite cos_2PI_Z, sin_2PI_Z. reflexivity.
Qed.

(** ** C22: one to one on the visible side *)
Lemma cos_1_turns : forall x, cos x = 1 -> exists k, x = 2 * IZR k * PI.
Proof.
  intros x H. assert (S : sin (x / 2) = 0).
  { pose proof (cos_2a_sin (x / 2)) as E. replace (2 * (x / 2)) with x in E by field. rewrite H in E. nra. }
  apply sin_eq_0_0 in S. destruct S as [k S]. exists k. lra.
Qed.

Theorem C22_visible_one_to_one : forall rev a b sat_lon lon1 lat1 p1 lon2 lat2 p2,
  ellipsoid_of rev a b -> -90 < lat1 < 90 -> -90 < lat2 < 90 ->
  located a b lon1 lat1 sat_lon p1 -> located a b lon2 lat2 sat_lon p2 ->
  visible a b sat_distance p1 -> visible a b sat_distance p2 ->
  ltg_ellps_lon_lat_to_fixed_grid lon1 lat1 sat_lon rev = ltg_ellps_lon_lat_to_fixed_grid lon2 lat2 sat_lon rev ->
  lat1 = lat2 /\ (exists k, lon1 = lon2 + 360 * IZR k) /\
  (-180 <= lon1 - sat_lon <= 180 -> -180 <= lon2 - sat_lon <= 180 -> lon1 = lon2).
Proof.
  intros rev a b sat lon1 lat1 p1 lon2 lat2 p2 HE B1 B2 P1 P2 V1 V2 EQ.
  destruct (C20_every_location rev a b lon1 lat1 sat HE) as [p' [b0 [a0 [_ M1]]]].
  assert (M2 := M1). rewrite EQ in M2.
  apply (C20_line_of_sight rev a b _ _ _ p1 _ _ HE P1) in M1.
  apply (C20_line_of_sight rev a b _ _ _ p2 _ _ HE P2) in M2.
  assert (p1 = p2) by (apply (same_direction_visible a b sat_distance p1 p2 b0 a0); auto; [apply P1|apply P2]).
  subst p2.
  destruct P1 as [L1 [f1 [G1 T1]]], P2 as [L2 [f2 [G2 T2]]].
  destruct (towards_unique _ _ _ _ _ T1 T2) as [-> [C S]].
  assert (PIp := PI_RGT_0).
  assert (Tn : tan (degrees lat1) = tan (degrees lat2)).
  { unfold geocentric_of in *. apply Rmult_eq_reg_l with ((grs80_b / grs80_a) ^ 2); [congruence|].
    unfold grs80_a, grs80_b. lra. }
  assert (El : degrees lat1 = degrees lat2) by (apply tan_inj; auto; unfold degrees; split; nra).
  assert (Elat : lat1 = lat2) by (unfold degrees in El; nra).
  split; [exact Elat|].
  assert (K : exists k, lon1 = lon2 + 360 * IZR k).
  { destruct (cos_1_turns (degrees (lon1 - sat) - degrees (lon2 - sat))) as [k K].
    - rewrite cos_minus, C, S. pose proof (sin2_cos2 (degrees (lon2 - sat))) as T. unfold Rsqr in T. lra.
    - exists k. unfold degrees in K.
      assert (PI * (lon1 - lon2 - 360 * IZR k) = 0) by lra.
      apply Rmult_integral in H. lra. }
  split; [exact K|]. intros R1 R2.
  (* both points lie on the side facing the satellite *)
  assert (Hab : 0 < a /\ 0 < b /\ a < sat_distance).
  { unfold sat_distance. destruct HE as [[_ [-> ->]]|[_ [-> ->]]]; lra. }
  destruct Hab as [Ha [Hb Hh]].
  apply (visible_iff a b sat_distance p1 Ha Hb Hh L1) in V1.
  assert (X0 : 0 < px p1).
  { assert (0 < a * a / sat_distance) by (apply Rdiv_lt_0_compat; nra). lra. }
  destruct K as [k K].
  assert (Kb : -1 <= IZR k <= 1) by lra.
  assert (k = 0 \/ k = 1 \/ k = -1)%Z.
  { destruct Kb as [K1 K2]. apply le_IZR in K1. apply le_IZR in K2. lia. }
  assert (Far : forall lon, lon - sat = 180 \/ lon - sat = -180 -> cos (degrees (lon - sat)) = -1).
  { intros lon [E|E]; rewrite E; unfold degrees.
    - replace (180 * PI / 180) with PI by field. apply cos_PI.
    - replace (-180 * PI / 180) with (- PI) by field. rewrite cos_neg. apply cos_PI. }
  destruct T1 as [Bf [r [Pr [X _]]]].
  assert (Cf : 0 < cos f2) by (apply cos_gt_0; lra).
  assert (0 < r * cos f2) by (apply Rmult_lt_0_compat; assumption).
  destruct H as [-> | [-> | ->]].
  - lra.
  - exfalso. rewrite Far in X by lra. nra.
  - exfalso. rewrite Far in X by lra. nra.
Qed.

(** The visible points are those of the cap facing the satellite. *)
Theorem C22_visible_cap : forall rev a b p, ellipsoid_of rev a b -> level a b p = 1 ->
  visible a b sat_distance p <-> a * a / sat_distance <= px p.
Proof.
  intros rev a b p HE L. apply visible_iff; unfold sat_distance;
    [destruct HE as [[_ [-> ->]]|[_ [-> ->]]]; lra|destruct HE as [[_ [-> ->]]|[_ [-> ->]]]; lra|destruct HE as [[_ [-> ->]]|[_ [-> ->]]]; lra|exact L].
Qed.

Example C22_ex : forall sat_lon, exists p q,
  located 6392137 6362755 (sat_lon + 60) 0 sat_lon p /\ visible 6392137 6362755 sat_distance p /\
  located 6392137 6362755 (sat_lon - 300) 0 sat_lon q /\ visible 6392137 6362755 sat_distance q.
Proof.
  intro sat. exists (mkPt (6392137 / 2) (6392137 * sin (PI / 3)) 0), (mkPt (6392137 / 2) (6392137 * sin (PI / 3)) 0).
  assert (L : level 6392137 6362755 (mkPt (6392137 / 2) (6392137 * sin (PI / 3)) 0) = 1).
  { unfold level; cbn [px py pz]. pose proof (sin2_cos2 (PI / 3)) as T. unfold Rsqr in T. rewrite cos_PI3 in T. nra. }
  assert (V : visible 6392137 6362755 sat_distance (mkPt (6392137 / 2) (6392137 * sin (PI / 3)) 0)).
  { apply (C22_visible_cap 1 6392137 6362755); [right; auto|exact L|]. cbn [px]. unfold sat_distance. lra. }
  assert (D : forall lon, cos (degrees (lon - sat)) = 1 / 2 -> sin (degrees (lon - sat)) = sin (PI / 3) ->
    located 6392137 6362755 lon 0 sat (mkPt (6392137 / 2) (6392137 * sin (PI / 3)) 0)).
  { intros lon C S. split; [exact L|]. exists 0. unfold geocentric_of.
    replace (degrees 0) with 0 by (unfold degrees; field). rewrite tan_0. split; [ring|].
    pose proof PI_RGT_0. split; [lra|]. exists 6392137. cbn [px py pz]. rewrite C, S, cos_0, sin_0.
    repeat split; try lra. }
  split; [|split; [exact V|split; [|exact V]]].
  - apply D; replace (degrees (sat + 60 - sat)) with (PI / 3) by (unfold degrees; field); [apply cos_PI3|reflexivity].
  - apply D; replace (degrees (sat - 300 - sat)) with (PI / 3 + 2 * IZR (-1) * PI) by (unfold degrees; simpl; field);
      [rewrite cos_2PI_Z; apply cos_PI3|apply sin_2PI_Z].
Qed.

(** ** C55: the angles of all locations are small *)
Lemma sin_bound_angle : forall x s, - (PI / 2) < x < PI / 2 -> sin x * sin x <= s * s -> 0 <= s -> s < 0.159 -> -0.16 < x < 0.16.
Proof.
  assert (P : PI / 2 > 0.16) by (pose proof PI2_3_2; lra).
  assert (S16 : 0.159 < sin 0.16).
  { pose proof (SIN 0.16 ltac:(lra) ltac:(lra)) as [A _]. unfold sin_lb, sin_approx, sin_term in A.
    cbn [sum_f_R0] in A. simpl in A. lra. }
  assert (U : forall x s, - (PI / 2) < x < PI / 2 -> sin x * sin x <= s * s -> 0 <= s -> s < 0.159 -> x < 0.16).
  { intros x s B H S0 S. destruct (Rlt_or_le x 0.16) as [L|G]; [exact L|exfalso].
    assert (sin 0.16 <= sin x) by (apply sin_incr_1; lra). nra. }
  intros x s B H S0 S. split; [|apply (U x s); assumption].
  assert (- x < 0.16); [|lra]. apply (U (- x) s); try lra. rewrite sin_neg. lra.
Qed.

(** Wherever a location is, on the near or the far side, both its angles are below
    0.16 radians in magnitude: half of the range covered by the event lookup table. *)
Theorem C55_angles_small : forall rev lon lat sat_lon beta alpha,
  ltg_ellps_lon_lat_to_fixed_grid lon lat sat_lon rev = Ok (beta, alpha) ->
  -0.16 < beta < 0.16 /\ -0.16 < alpha < 0.16.
Proof.
  intros rev lon lat sat beta alpha H.
  assert (E : exists a b, ellipsoid_of rev a b).
  { destruct (Z.eq_dec rev 0) as [->|N0]; [exists 6394140, 6362755; left; auto|].
    destruct (Z.eq_dec rev 1) as [->|N1]; [exists 6392137, 6362755; right; auto|].
    rewrite C20_unknown_revision in H by assumption. discriminate. }
  destruct E as [a [b HE]].
  destruct (C20_every_location rev a b lon lat sat HE) as [p [b0 [a0 [P _]]]].
  apply (C20_line_of_sight rev a b lon lat sat p beta alpha HE P) in H.
  destruct H as [B [A [d [D [X [Y Z]]]]]]. destruct P as [L _].
  assert (Hab : 0 < a /\ 0 < b /\ b <= a /\ a / sat_distance < 0.159 /\ 0 < a / sat_distance).
  { unfold sat_distance. destruct HE as [[_ [-> ->]]|[_ [-> ->]]]; lra. }
  destruct Hab as [Ha [Hb [Hba [Hs Hs0]]]].
  assert (Hd : 0 < sat_distance) by (unfold sat_distance; lra).
  assert (Norm : px p * px p + py p * py p + pz p * pz p <= a * a).
  { unfold level in L. assert (Ey : px p * px p + py p * py p = a * a * ((px p / a) ^ 2 + (py p / a) ^ 2)) by (field; lra).
    assert (Ezz : pz p * pz p = b * b * (pz p / b) ^ 2) by (field; lra).
    rewrite Ey, Ezz. pose proof (pow2_ge_0 (pz p / b)) as W.
    assert (b * b * (pz p / b) ^ 2 <= a * a * (pz p / b) ^ 2) by (apply Rmult_le_compat_r; [exact W|nra]).
    replace (a * a) with (a * a * ((px p / a) ^ 2 + (py p / a) ^ 2 + (pz p / b) ^ 2)) at 2 by (rewrite L; ring).
    lra. }
  set (h := sat_distance) in *.
  set (cb := cos beta) in *. set (sb := sin beta) in *. set (ca := cos alpha) in *. set (sa := sin alpha) in *.
  assert (Tb : sb * sb + cb * cb = 1) by (pose proof (sin2_cos2 beta) as T; exact T).
  assert (Ta : sa * sa + ca * ca = 1) by (pose proof (sin2_cos2 alpha) as T; exact T).
  rewrite X, Y, Z in Norm.
  (* |p|^2 = (d - h cb ca)^2 + h^2 (1 - cb^2 ca^2) *)
  assert (N2 : h * h * (1 - (cb * ca) * (cb * ca)) <= a * a).
  { assert (Q : (h - d * (cb * ca)) * (h - d * (cb * ca)) + d * sb * (d * sb) + d * (cb * sa) * (d * (cb * sa))
      = (d - h * (cb * ca)) * (d - h * (cb * ca)) + h * h * (1 - (cb * ca) * (cb * ca))).
    { assert (d * sb * (d * sb) + d * (cb * sa) * (d * (cb * sa)) = d * d * (1 - (cb * ca) * (cb * ca))).
      { replace (1 - (cb * ca) * (cb * ca)) with (sb * sb + cb * cb * (sa * sa)).
        - ring.
        - replace (sa * sa) with (1 - ca * ca) by lra. replace (sb * sb) with (1 - cb * cb) by lra. ring. }
      lra. }
    rewrite Q in Norm. pose proof (Rle_0_sqr (d - h * (cb * ca))) as W. unfold Rsqr in W. lra. }
  set (s := a / h) in *.
  assert (Es : a = s * h) by (unfold s; field; lra).
  assert (N3 : 1 - (cb * ca) * (cb * ca) <= s * s).
  { apply Rmult_le_reg_l with (h * h); [nra|]. rewrite Es in N2. nra. }
  assert (ca * ca <= 1 /\ cb * cb <= 1) by nra.
  split; apply (sin_bound_angle _ s); try lra; auto; fold sb; fold sa; nra.
Qed.

Print Assumptions C19_revision_step_partial.
Print Assumptions C19_dataset_revision.
Print Assumptions C19_radii_refuted.
Print Assumptions C20_line_of_sight.
Print Assumptions C20_every_location.
Print Assumptions C20_unknown_revision.
Print Assumptions C20_not_geodetic_on_lightning_ellipsoid.
Print Assumptions C21_subsatellite_point.
Print Assumptions C21_mirror_latitude.
Print Assumptions C21_mirror_longitude.
Print Assumptions C21_whole_turns.
Print Assumptions C22_visible_one_to_one.
Print Assumptions C22_visible_cap.
Print Assumptions C55_angles_small.
