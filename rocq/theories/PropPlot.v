(** C83: plots of gridded data (plot_glm_grid, and plot_glm of the examples). *)
From Coq Require Import List ZArith QArith Qabs Bool Ascii String Lia Lqa.
From Verif Require Import Base BaseProofs Glm LutProofs Aggregate Imagery ImagerySpec ImageryProofs PropImagery Plot PlotSpec PlotProofs.
Import ListNotations.
Open Scope Q_scope.

Lemma plot_field_inv : forall g t rows cols i f p, plot_field g t rows cols i f = Ok p ->
  exists pr fr l m, In (f, pr) display_params /\ select_time (gr_series g) f t = Ok fr /\
    nth_error panel_labels i = Some l /\ (0 < rows)%Z /\ (0 < cols)%Z /\ (Z.of_nat (S i) <= rows * cols)%Z /\
    amax (image_values (List.length (gr_y g)) (List.length (gr_x g)) (fun r c => zero_nan (fr_at fr f (r, c)))) = Ok m /\
    exists x0 x1 y0 y1, amin (map (fun v => v * gr_height g) (gr_x g)) = Ok x0 /\ amax (map (fun v => v * gr_height g) (gr_x g)) = Ok x1 /\
      amin (map (fun v => v * gr_height g) (gr_y g)) = Ok y0 /\ amax (map (fun v => v * gr_height g) (gr_y g)) = Ok y1 /\
      p = mkPanel f (S i) l (p_label pr) t x0 x1 y0 y1 (List.length (gr_y g)) (List.length (gr_x g))
            (fun r c => zero_nan (fr_at fr f (r, c))) m (p_vmin pr) (p_vmax pr).
Proof.
  intros g t rows cols i f p H. unfold plot_field in H. cbn [bind] in H.
  destruct (amin (map _ (gr_x g))) as [x0|] eqn:E1; [|discriminate]. cbn [bind] in H.
  destruct (amax (map _ (gr_x g))) as [x1|] eqn:E2; [|discriminate]. cbn [bind] in H.
  destruct (amin (map _ (gr_y g))) as [y0|] eqn:E3; [|discriminate]. cbn [bind] in H.
  destruct (amax (map _ (gr_y g))) as [y1|] eqn:E4; [|discriminate]. cbn [bind] in H.
  destruct (lookup_params f) as [pr|] eqn:E5; [|discriminate]. cbn [bind] in H.
  destruct (Z.leb_spec rows 0); [discriminate|]. destruct (Z.leb_spec cols 0); [discriminate|].
  destruct (Z.ltb_spec (rows * cols) (Z.of_nat (S i))); [discriminate|]. cbn [orb] in H.
  destruct (select_time (gr_series g) f t) as [fr|] eqn:E6; [|discriminate]. cbn [bind] in H.
  rewrite !map_length in H.
  destruct (amax (image_values _ _ _)) as [m|] eqn:E7; [|discriminate]. cbn [bind] in H.
  destruct (nth_error panel_labels i) as [l|] eqn:E8; [|discriminate]. injection H as <-.
  exists pr, fr, l, m. split.
  { unfold lookup_params in E5. clear - E5. induction display_params as [|[k a] dl IH]; [discriminate|]. cbn in E5.
    destruct (String.eqb_spec k f); [inversion E5; subst; left; auto|right; auto]. }
  do 6 (split; [solve [auto]|]). exists x0, x1, y0, y1. auto 6.
Qed.
Lemma assoc_known : forall A f (l : list (string * A)), In f (map fst l) -> exists a, assoc f l = Ok a.
Proof.
  induction l as [|[k a] l IH]; intros H; [destruct H|]. cbn [assoc]. destruct (String.eqb_spec k f); [eauto|].
  apply IH. destruct H; [contradiction|auto].
Qed.
Lemma map_not_nil : forall A B (f : A -> B) l, l <> [] -> map f l <> [].
Proof. intros A B f [|a l] H; [congruence|discriminate]. Qed.
Lemma plot_field_ok : forall g t rows cols i f fr, gr_x g <> [] -> gr_y g <> [] -> In f (map fst display_params) ->
  (0 < rows)%Z -> (0 < cols)%Z -> (Z.of_nat (S i) <= rows * cols)%Z -> (i < 12)%nat ->
  select_time (gr_series g) f t = Ok fr -> exists p, plot_field g t rows cols i f = Ok p.
Proof.
  intros g t rows cols i f fr Hx Hy Hf Hr Hc Hl Hi Hs. unfold plot_field. cbn [bind].
  destruct (amin_some _ (map_not_nil _ _ (fun v => v * gr_height g) _ Hx)) as [x0 ->].
  destruct (amax_some _ (map_not_nil _ _ (fun v => v * gr_height g) _ Hx)) as [x1 ->].
  destruct (amin_some _ (map_not_nil _ _ (fun v => v * gr_height g) _ Hy)) as [y0 ->].
  destruct (amax_some _ (map_not_nil _ _ (fun v => v * gr_height g) _ Hy)) as [y1 ->]. cbn [bind].
  destruct (assoc_known _ f display_params Hf) as [pr Hpr]. unfold lookup_params. rewrite Hpr. cbn [bind].
  destruct (Z.leb_spec rows 0); [lia|]. destruct (Z.leb_spec cols 0); [lia|].
  destruct (Z.ltb_spec (rows * cols) (Z.of_nat (S i))); [lia|]. cbn [orb]. rewrite Hs. cbn [bind]. rewrite !map_length.
  assert (0 < List.length (gr_x g))%nat by (destruct (gr_x g); [congruence|cbn; lia]).
  assert (0 < List.length (gr_y g))%nat by (destruct (gr_y g); [congruence|cbn; lia]).
  match goal with |- context [amax ?l] => destruct (amax_some l) as [m ->]; [apply image_some; auto|] end. cbn [bind].
  destruct (nth_error panel_labels i) as [l|] eqn:E; [eauto|]. apply nth_error_None in E. cbn in E. lia.
Qed.

Lemma nth_enumerate : forall A (l : list A) i a, nth_error (enumerate l) i = Some a <-> fst a = i /\ nth_error l i = Some (snd a).
Proof.
  intros A l i a. unfold enumerate.
  assert (G : forall (l : list A) k i, nth_error (combine (seq k (List.length l)) l) i = option_map (fun b => ((k + i)%nat, b)) (nth_error l i)).
  { clear. induction l as [|b l IH]; intros k i; [destruct i; reflexivity|]. cbn [List.length seq combine]. destruct i; cbn [nth_error].
    - rewrite Nat.add_0_r. reflexivity.
    - rewrite IH. destruct (nth_error l i); cbn; auto. do 2 f_equal. lia. }
  rewrite G. cbn. split.
  - destruct (nth_error l i) as [b|]; [|discriminate]. intros H. injection H as <-. auto.
  - destruct a as [j b]. cbn. intros [-> ->]. reflexivity.
Qed.
Lemma plot_panels : forall g t fields rows cols g' ps, plot_glm_grid g t fields rows cols = Ok (g', ps) ->
  g' = g /\ ps <> [] /\ Forall2 (fun jf p => plot_field g t rows cols (fst jf) (snd jf) = Ok p) (enumerate fields) ps.
Proof.
  intros g t fields rows cols g' ps H. unfold plot_glm_grid in H.
  destruct (amin (gr_x g)); [|discriminate]. destruct (amin (gr_y g)); [|discriminate]. cbn [bind] in H.
  destruct (map_res _ _) as [l|] eqn:E; [|discriminate]. cbn [bind] in H. apply map_res_inv in E.
  destruct l; [discriminate|]. injection H as <- <-. repeat split; auto. discriminate.
Qed.
Lemma F2_nth : forall A B (R : A -> B -> Prop) l l', Forall2 R l l' -> List.length l = List.length l' /\
  forall i a b, nth_error l i = Some a -> nth_error l' i = Some b -> R a b.
Proof.
  induction 1 as [|a b l l' H _ [L IH]]; cbn.
  - split; auto. intros [|i] a b; discriminate.
  - split; [lia|]. intros [|i] x y Hx Hy; cbn in *; [congruence|eauto].
Qed.
Lemma enumerate_length : forall A (l : list A), List.length (enumerate l) = List.length l.
Proof. intros. unfold enumerate. rewrite combine_length, seq_length. lia. Qed.

(** * What is shown *)
(** One panel for each field, in order and in the subplot of the same number; every pixel shows the value stored
    for that time, zero where it is missing; the label has the largest value shown; the dataset is left
    as it was. *)
Theorem C83_panels_show_the_data : forall g t fields rows cols g' ps,
  plot_glm_grid g t fields rows cols = Ok (g', ps) ->
  g' = g /\ List.length ps = List.length fields /\
  forall i f p, nth_error fields i = Some f -> nth_error ps i = Some p ->
    pn_field p = f /\ pn_position p = S i /\ (Z.of_nat (S i) <= rows * cols)%Z /\ pn_time p = t /\
    pn_rows p = List.length (gr_y g) /\ pn_cols p = List.length (gr_x g) /\
    (forall r c, exists v, stored g t f r c v /\ pn_shown p r c = match v with Some q => q | None => 0 end) /\
    (forall r c, (r < pn_rows p)%nat -> (c < pn_cols p)%nat -> pn_shown p r c <= pn_max p) /\
    (exists r c, (r < pn_rows p)%nat /\ (c < pn_cols p)%nat /\ pn_shown p r c = pn_max p).
Proof.
  intros g t fields rows cols g' ps H. apply plot_panels in H. destruct H as (-> & _ & H). apply F2_nth in H. destruct H as [L H].
  rewrite enumerate_length in L. split; auto. split; [lia|]. intros i f p Hf Hp.
  specialize (H i (i, f) p (proj2 (nth_enumerate _ fields i (i, f)) (conj eq_refl Hf)) Hp). cbn [fst snd] in H.
  destruct (plot_field_inv _ _ _ _ _ _ _ H) as (pr & fr & l & m & _ & S & _ & _ & _ & Hl & M & x0 & x1 & y0 & y1 & _ & _ & _ & _ & ->).
  cbn [pn_field pn_position pn_time pn_rows pn_cols pn_shown pn_max]. repeat (split; [solve [auto]|]).
  apply select_stored in S. destruct S as (Sf & pre & post & E & Et & K). apply amax_spec in M. destruct M as [M1 M2]. split; [|split].
  - intros r c. eexists. split; [split; [exact Sf|]; exists pre, fr, post; eauto|]. reflexivity.
  - intros r c Hr Hc. apply M1. apply in_image. eauto.
  - apply in_image in M2. destruct M2 as (r & c & Hr & Hc & ->). eauto.
Qed.
Print Assumptions C83_panels_show_the_data.

(** The call succeeds exactly if there is something to show and room for it. *)
Theorem C83_plots_when : forall g t fields rows cols,
  (exists r, plot_glm_grid g t fields rows cols = Ok r) <->
  fields <> [] /\ gr_x g <> [] /\ gr_y g <> [] /\ (0 < rows)%Z /\ (0 < cols)%Z /\
  (Z.of_nat (List.length fields) <= rows * cols)%Z /\ (List.length fields <= 12)%nat /\
  forall f, In f fields -> In f (map fst display_params) /\ exists v, stored g t f 0 0 v.
Proof.
  intros g t fields rows cols. split.
  - intros [[g' ps] H]. pose proof H as H0. apply plot_panels in H. destruct H as (-> & N & H). apply F2_nth in H. destruct H as [L H].
    rewrite enumerate_length in L.
    assert (P : forall i f, nth_error fields i = Some f -> exists p, plot_field g t rows cols i f = Ok p).
    { intros i f Hf. destruct (nth_error ps i) as [p|] eqn:Hp.
      - exists p. apply (H i (i, f) p (proj2 (nth_enumerate _ fields i (i, f)) (conj eq_refl Hf)) Hp).
      - apply nth_error_None in Hp. assert (i < List.length fields)%nat by (apply nth_error_Some; congruence). lia. }
    assert (NF : fields <> []) by (intros ->; destruct ps; [congruence|discriminate]).
    assert (LF : (0 < List.length fields)%nat) by (destruct fields; [congruence|cbn; lia]).
    destruct (nth_error fields (List.length fields - 1)) as [fl|] eqn:El; [|apply nth_error_None in El; lia].
    destruct (P _ _ El) as [pl Hpl].
    destruct (plot_field_inv _ _ _ _ _ _ _ Hpl) as (_ & _ & l & _ & _ & _ & Hlab & Hr & Hc & Hle & _ & _).
    split; auto. unfold plot_glm_grid in H0. split; [intros K; rewrite K in H0; discriminate|].
    split; [intros K; rewrite K in H0; cbn in H0; destruct (amin (gr_x g)); discriminate|].
    repeat (split; [solve [auto | replace (List.length fields) with (S (List.length fields - 1)) by lia; auto]|]).
    split.
    { assert (K : (List.length fields - 1 < List.length panel_labels)%nat) by (apply nth_error_Some; congruence). cbn in K. lia. }
    intros f Hf. apply In_nth_error in Hf. destruct Hf as [i Hi]. destruct (P _ _ Hi) as [p Hp].
    destruct (plot_field_inv _ _ _ _ _ _ _ Hp) as (pr & fr & _ & _ & D & S & _). split.
    + apply in_map_iff. exists (f, pr). auto.
    + apply select_stored in S. destruct S as (Sf & pre & post & E & Et & K). eexists. split; auto. exists pre, fr, post. eauto.
  - intros (NF & Hx & Hy & Hr & Hc & Hl & H12 & K). unfold plot_glm_grid.
    destruct (amin_some _ Hx) as [? ->]. destruct (amin_some _ Hy) as [? ->]. cbn [bind].
    assert (E : exists ps, map_res (fun jf => plot_field g t rows cols (fst jf) (snd jf)) (enumerate fields) = Ok ps).
    { assert (G : forall jf, In jf (enumerate fields) -> exists p, plot_field g t rows cols (fst jf) (snd jf) = Ok p).
      { intros [j f] Hj. apply In_nth_error in Hj. destruct Hj as [i Hi]. apply nth_enumerate in Hi. cbn in Hi. destruct Hi as [<- Hf].
        destruct (K f (nth_error_In _ _ Hf)) as (D & v & Sf & pre & fr & post & E & Et & Fo & _).
        assert (j < List.length fields)%nat by (apply nth_error_Some; congruence).
        apply plot_field_ok with (fr := fr); auto; [cbn [fst]; lia|cbn [fst]; lia|]. apply select_stored. cbn [snd]. eauto 8. }
      clear - G. induction (enumerate fields) as [|a l IH]; [eexists; reflexivity|]. cbn [map_res].
      destruct (G a ltac:(cbn; auto)) as [p ->]. cbn [bind]. destruct IH as [ps ->]; [intros; apply G; cbn; auto|]. eexists; reflexivity. }
    destruct E as [ps E]. rewrite E. cbn [bind]. apply map_res_inv in E. apply F2_nth in E. destruct E as [L _].
    rewrite enumerate_length in L. destruct ps; [destruct fields; [congruence|discriminate]|]. eexists; reflexivity.
Qed.
Print Assumptions C83_plots_when.

(** Every product made by the gridder can be shown, up to six of them in the default layout. *)
Theorem C83_products_shown : forall g t fields, gr_x g <> [] -> gr_y g <> [] ->
  fields <> [] -> (List.length fields <= 6)%nat -> (forall f, In f fields -> In f lut_names /\ exists v, stored g t f 0 0 v) ->
  exists ps, plot_glm_grid g t fields 2 3 = Ok (g, ps).
Proof.
  intros g t fields Hx Hy N L K. assert (E : exists r, plot_glm_grid g t fields 2 3 = Ok r).
  { apply C83_plots_when. repeat (split; [solve [auto | lia]|]). intros f Hf. destruct (K f Hf) as [K1 K2]. split; auto.
    clear - K1. cbn in *. intuition (subst; auto 12). }
  destruct E as [[g' ps] E]. exists ps. rewrite E. apply C83_panels_show_the_data in E. destruct E as [-> _]. reflexivity.
Qed.
Print Assumptions C83_products_shown.
(** All eight products of a file at once do not fit the default layout: the call raises. *)
Theorem C83_all_products_refuted : forall g t, ~ exists r, plot_glm_grid g t lut_names 2 3 = Ok r.
Proof. intros g t H. apply C83_plots_when in H. destruct H as (_ & _ & _ & _ & _ & H & _). cbn in H. lia. Qed.
Print Assumptions C83_all_products_refuted.

(** * Where it is shown *)
Lemma half_cell : forall e n k, 0 < e -> (k < n)%nat ->
  Qabs (e * inject_Z (Z.of_nat n - 1 - 2 * Z.of_nat k) / inject_Z (2 * Z.of_nat n)) < e / 2.
Proof.
  intros e n k He Hk. assert (Hn : 0 < inject_Z (2 * Z.of_nat n)) by (rewrite <- (Zlt_Qlt 0); lia).
  assert (Hn' : inject_Z (2 * Z.of_nat n) == 2 * inject_Z (Z.of_nat n)) by (rewrite inject_Z_mult; reflexivity).
  apply Qabs_case; intros _.
  - apply Qlt_shift_div_r; auto. rewrite Hn'. setoid_replace (e / 2 * (2 * inject_Z (Z.of_nat n))) with (e * inject_Z (Z.of_nat n)) by field.
    apply Qmult_lt_l; auto. rewrite <- Zlt_Qlt. lia.
  - setoid_replace (- (e * inject_Z (Z.of_nat n - 1 - 2 * Z.of_nat k) / inject_Z (2 * Z.of_nat n)))
      with (e * inject_Z (- (Z.of_nat n - 1 - 2 * Z.of_nat k)) / inject_Z (2 * Z.of_nat n)).
    2:{ rewrite inject_Z_opp. unfold Qdiv. ring. }
    apply Qlt_shift_div_r; auto. rewrite Hn'. setoid_replace (e / 2 * (2 * inject_Z (Z.of_nat n))) with (e * inject_Z (Z.of_nat n)) by field.
    apply Qmult_lt_l; auto. rewrite <- Zlt_Qlt. lia.
Qed.
Lemma even_cells : forall a e n k, (0 < n)%nat ->
  a + (inject_Z (Z.of_nat k) + (1 # 2)) * (a + inject_Z (Z.of_nat (n - 1)) * e - a) / inject_Z (Z.of_nat n)
    - (a + inject_Z (Z.of_nat k) * e) == e * inject_Z (Z.of_nat n - 1 - 2 * Z.of_nat k) / inject_Z (2 * Z.of_nat n).
Proof.
  intros a e n k Hn. assert (E : inject_Z (Z.of_nat (n - 1)) == inject_Z (Z.of_nat n) - 1).
  { rewrite Nat2Z.inj_sub by lia. unfold Z.sub. rewrite inject_Z_plus, inject_Z_opp. reflexivity. }
  rewrite E. unfold Z.sub. rewrite !inject_Z_plus, !inject_Z_opp, !inject_Z_mult.
  change (inject_Z (Z.of_nat 1)) with 1. change (inject_Z 1) with 1. change (inject_Z 2) with 2.
  assert (~ inject_Z (Z.of_nat n) == 0). { intros K. change 0 with (inject_Z 0) in K. apply (proj1 (inject_Z_injective _ _)) in K. lia. }
  field. auto.
Qed.

(** The panel of a successful plot. *)
Definition panel_of (g : gridded) (p : panel) : Prop :=
  exists t fields rows cols g' ps, plot_glm_grid g t fields rows cols = Ok (g', ps) /\ In p ps.
Lemma panel_extent : forall g p, panel_of g p -> pn_rows p = List.length (gr_y g) /\ pn_cols p = List.length (gr_x g) /\
  amin (map (fun v => v * gr_height g) (gr_x g)) = Ok (pn_left p) /\ amax (map (fun v => v * gr_height g) (gr_x g)) = Ok (pn_right p) /\
  amin (map (fun v => v * gr_height g) (gr_y g)) = Ok (pn_bottom p) /\ amax (map (fun v => v * gr_height g) (gr_y g)) = Ok (pn_top p).
Proof.
  intros g p (t & fields & rows & cols & g' & ps & H & Hp). apply plot_panels in H. destruct H as (_ & _ & H).
  apply In_nth_error in Hp. destruct Hp as [i Hi]. apply F2_nth in H. destruct H as [L H].
  destruct (nth_error (enumerate fields) i) as [jf|] eqn:E.
  2:{ apply nth_error_None in E. assert (i < List.length ps)%nat by (apply nth_error_Some; congruence). lia. }
  specialize (H _ _ _ E Hi). destruct (plot_field_inv _ _ _ _ _ _ _ H) as (pr & fr & l & m & _ & _ & _ & _ & _ & _ & _ & x0 & x1 & y0 & y1 & h1 & h2 & h3 & h4 & ->).
  cbn. auto 8.
Qed.
Lemma columns : forall g p a d c x, panel_of g p -> 0 < gr_height g -> 0 < d -> evenly a d (gr_x g) -> nth_error (gr_x g) c = Some x ->
  drawn_x p c - x * gr_height g ==
    d * gr_height g * inject_Z (Z.of_nat (pn_cols p) - 1 - 2 * Z.of_nat c) / inject_Z (2 * Z.of_nat (pn_cols p)).
Proof.
  intros g p a d c x P Hh Hd Ev Hx. destruct (panel_extent _ _ P) as (_ & Ec & L & R & _).
  assert (Hdh : 0 <= d * gr_height g) by (apply Qmult_le_0_compat; lra).
  destruct (evenly_up _ _ _ _ _ Hdh (evenly_scale _ _ _ _ Ev) L R) as [EL ER]. rewrite map_length in ER.
  assert (Hc : (c < List.length (gr_x g))%nat) by (apply nth_error_Some; congruence).
  unfold drawn_x. rewrite EL, ER, Ec. rewrite <- even_cells with (a := a * gr_height g) by lia.
  rewrite (Ev _ _ Hx). unfold Qdiv. ring.
Qed.
Lemma rows_down : forall g p a d r y, panel_of g p -> 0 < gr_height g -> 0 < d -> evenly a (- d) (gr_y g) -> nth_error (gr_y g) r = Some y ->
  drawn_y p r - y * gr_height g ==
    - (d * gr_height g * inject_Z (Z.of_nat (pn_rows p) - 1 - 2 * Z.of_nat r) / inject_Z (2 * Z.of_nat (pn_rows p))).
Proof.
  intros g p a d r y P Hh Hd Ev Hy. destruct (panel_extent _ _ P) as (Er & _ & _ & _ & L & R).
  assert (Hdh : 0 <= d * gr_height g) by (apply Qmult_le_0_compat; lra).
  assert (Ev' : evenly (a * gr_height g) (- (d * gr_height g)) (map (fun v => v * gr_height g) (gr_y g))).
  { intros i v E. rewrite (evenly_scale _ _ (gr_height g) _ Ev _ _ E). ring. }
  destruct (evenly_down _ _ _ _ _ Hdh Ev' L R) as [ET EB]. rewrite map_length in EB.
  assert (Hr : (r < List.length (gr_y g))%nat) by (apply nth_error_Some; congruence).
  unfold drawn_y. rewrite ET, EB, Er. rewrite <- even_cells with (a := a * gr_height g) by lia.
  rewrite (Ev _ _ Hy). unfold Qdiv. ring.
Qed.

(** With evenly spaced coordinates, x increasing and y decreasing, each pixel is drawn less than half a pixel
    from its coordinates, displaced towards the middle of the image by the amount given. *)
Theorem C83_drawn_near_coordinates_partial : forall g p a d a' d' r c x y,
  panel_of g p -> 0 < gr_height g -> 0 < d -> evenly a d (gr_x g) -> 0 < d' -> evenly a' (- d') (gr_y g) ->
  nth_error (gr_x g) c = Some x -> nth_error (gr_y g) r = Some y ->
  drawn_x p c - x * gr_height g ==
    d * gr_height g * inject_Z (Z.of_nat (List.length (gr_x g)) - 1 - 2 * Z.of_nat c) / inject_Z (2 * Z.of_nat (List.length (gr_x g))) /\
  drawn_y p r - y * gr_height g ==
    - (d' * gr_height g * inject_Z (Z.of_nat (List.length (gr_y g)) - 1 - 2 * Z.of_nat r) / inject_Z (2 * Z.of_nat (List.length (gr_y g)))) /\
  Qabs (drawn_x p c - x * gr_height g) < d * gr_height g / 2 /\
  Qabs (drawn_y p r - y * gr_height g) < d' * gr_height g / 2.
Proof.
  intros g p a d a' d' r c x y P Hh Hd Ev Hd' Ev' Hx Hy. destruct (panel_extent _ _ P) as (Er & Ec & _).
  pose proof (columns _ _ _ _ _ _ P Hh Hd Ev Hx) as A. pose proof (rows_down _ _ _ _ _ _ P Hh Hd' Ev' Hy) as B.
  assert (c < List.length (gr_x g))%nat by (apply nth_error_Some; congruence).
  assert (r < List.length (gr_y g))%nat by (apply nth_error_Some; congruence).
  rewrite Er in B. rewrite Ec in A. split; [exact A|]. split; [exact B|]. rewrite A, B. split.
  - apply half_cell; auto. apply Qmult_lt_0_compat; auto.
  - rewrite Qabs_opp. apply half_cell; auto. apply Qmult_lt_0_compat; auto.
Qed.
Print Assumptions C83_drawn_near_coordinates_partial.

(** Only the middle column is drawn at its coordinate: the extent given to imshow runs between the centers of the
    outer pixels, not their edges.  The first column of every image of at least two columns is drawn at least a
    quarter of a pixel off. *)
Theorem C83_drawn_at_coordinates_refuted : forall g p a d,
  panel_of g p -> 0 < gr_height g -> 0 < d -> evenly a d (gr_x g) ->
  (forall c x, nth_error (gr_x g) c = Some x ->
     (drawn_x p c == x * gr_height g <-> (2 * c + 1 = List.length (gr_x g))%nat)) /\
  ((2 <= List.length (gr_x g))%nat -> forall x, nth_error (gr_x g) 0 = Some x ->
     d * gr_height g / 4 <= drawn_x p 0 - x * gr_height g).
Proof.
  intros g p a d P Hh Hd Ev. destruct (panel_extent _ _ P) as (_ & Ec & _).
  assert (Hdh : 0 < d * gr_height g) by (apply Qmult_lt_0_compat; auto). split.
  - intros c x Hx. pose proof (columns _ _ _ _ _ _ P Hh Hd Ev Hx) as A. rewrite Ec in A.
    assert (Hc : (c < List.length (gr_x g))%nat) by (apply nth_error_Some; congruence).
    set (n := List.length (gr_x g)) in *.
    assert (Hn : 0 < inject_Z (2 * Z.of_nat n)) by (rewrite <- (Zlt_Qlt 0); lia). split; intros H.
    + assert (A' : d * gr_height g * inject_Z (Z.of_nat n - 1 - 2 * Z.of_nat c) / inject_Z (2 * Z.of_nat n) == 0) by (rewrite <- A, H; ring).
      assert (E : d * gr_height g * inject_Z (Z.of_nat n - 1 - 2 * Z.of_nat c) == 0).
      { setoid_replace (d * gr_height g * inject_Z (Z.of_nat n - 1 - 2 * Z.of_nat c))
          with (d * gr_height g * inject_Z (Z.of_nat n - 1 - 2 * Z.of_nat c) / inject_Z (2 * Z.of_nat n) * inject_Z (2 * Z.of_nat n)) by (field; lra).
        rewrite A'. ring. }
      apply Qmult_integral in E. destruct E as [E|E]; [lra|]. change 0 with (inject_Z 0) in E. apply (proj1 (inject_Z_injective _ _)) in E. lia.
    + replace (Z.of_nat n - 1 - 2 * Z.of_nat c)%Z with 0%Z in A by lia. change (inject_Z 0) with 0 in A.
      assert (d * gr_height g * 0 / inject_Z (2 * Z.of_nat n) == 0) by (unfold Qdiv; ring). lra.
  - intros H2 x Hx. pose proof (columns _ _ _ _ _ _ P Hh Hd Ev Hx) as A. rewrite Ec in A. rewrite A. set (n := List.length (gr_x g)) in *.
    apply Qle_shift_div_l; [rewrite <- (Zlt_Qlt 0); lia|].
    rewrite inject_Z_mult. change (inject_Z 2) with 2.
    setoid_replace (d * gr_height g / 4 * (2 * inject_Z (Z.of_nat n))) with (d * gr_height g * (inject_Z (Z.of_nat n) / 2)) by field.
    apply Qmult_le_l; auto. apply Qle_shift_div_r; [lra|].
    setoid_replace (inject_Z (Z.of_nat n - 1 - 2 * Z.of_nat 0) * 2) with (inject_Z ((Z.of_nat n - 1 - 2 * Z.of_nat 0) * 2)) by (rewrite inject_Z_mult; reflexivity).
    rewrite <- Zle_Qle. lia.
Qed.
Print Assumptions C83_drawn_at_coordinates_refuted.

(** With y increasing the image is drawn upside down: row [r] lies near the coordinate of the row counted from
    the other end. *)
Theorem C83_increasing_y_refuted : forall g p a d r y,
  panel_of g p -> 0 < gr_height g -> 0 < d -> evenly a d (gr_y g) -> (r < List.length (gr_y g))%nat ->
  nth_error (gr_y g) (List.length (gr_y g) - 1 - r) = Some y ->
  Qabs (drawn_y p r - y * gr_height g) < d * gr_height g / 2.
Proof.
  intros g p a d r y P Hh Hd Ev Hr Hy. destruct (panel_extent _ _ P) as (Er & _ & _ & _ & L & R).
  assert (Hdh : 0 < d * gr_height g) by (apply Qmult_lt_0_compat; auto).
  destruct (evenly_up _ _ _ _ _ (Qlt_le_weak _ _ Hdh) (evenly_scale _ _ _ _ Ev) L R) as [EB ET]. rewrite map_length in ET.
  set (n := List.length (gr_y g)) in *.
  assert (E : drawn_y p r - y * gr_height g ==
    - (d * gr_height g * inject_Z (Z.of_nat n - 1 - 2 * Z.of_nat r) / inject_Z (2 * Z.of_nat n))).
  { rewrite <- even_cells with (a := - (a * gr_height g + inject_Z (Z.of_nat (n - 1)) * (d * gr_height g))) by lia. unfold drawn_y. rewrite EB, ET, Er. rewrite (Ev _ _ Hy). fold n.
    replace (Z.of_nat (n - 1 - r)) with (Z.of_nat (n - 1) - Z.of_nat r)%Z by lia. unfold Z.sub. rewrite inject_Z_plus, inject_Z_opp. unfold Qdiv. ring. }
  rewrite E, Qabs_opp. apply half_cell; auto.
Qed.
Print Assumptions C83_increasing_y_refuted.

(** Files written by the gridder with evenly spaced edges have such coordinates, the right way up. *)
Theorem C83_written_image_partial : forall gd pad scaled mx my outgrids after files t f a d a' d',
  writes gd pad scaled mx my outgrids after files -> nth_error files t = Some f ->
  0 < d -> evenly a d (gd_xedge gd) -> 0 < d' -> evenly a' d' (gd_yedge gd) ->
  forall g p, gr_x g = of_x f -> gr_y g = of_y f -> panel_of g p -> 0 < gr_height g ->
  forall r c, (r < my)%nat -> (c < mx)%nat ->
    exists x y, nth_error (of_x f) c = Some x /\ nth_error (of_y f) r = Some y /\
      Qabs (drawn_x p c - x * gr_height g) < d * gr_height g / 2 /\
      Qabs (drawn_y p r - y * gr_height g) < d' * gr_height g / 2.
Proof.
  intros gd pad scaled mx my og af files t f a d a' d' W Hf Hd Ev Hd' Ev' g p Ex Ey P Hh r c Hr Hc.
  destruct (writes_files _ _ _ _ _ _ _ _ W) as (_ & FF & _). destruct W as (_ & _ & LX & LY & _).
  destruct (FF t f Hf) as (Fx & Fy & _). destruct (coords _ _ _ LX) as [cx1 cx2]. destruct (coords _ _ _ LY) as [cy1 cy2].
  assert (C : forall e b s m k, evenly b s e -> List.length e = S (m + 2 * pad) -> (k < m)%nat ->
    center e (pad + k) == b + (inject_Z (Z.of_nat pad) + (1 # 2)) * s + inject_Z (Z.of_nat k) * s).
  { intros e b s m k E L Hk. unfold center.
    assert (E1 : nth_error e (pad + k) = Some (nth (pad + k) e 0)) by (apply nth_error_nth'; lia).
    assert (E2 : nth_error e (S (pad + k)) = Some (nth (S (pad + k)) e 0)) by (apply nth_error_nth'; lia).
    rewrite (E _ _ E1), (E _ _ E2). rewrite Nat2Z.inj_succ, Nat2Z.inj_add. unfold Z.succ. rewrite !inject_Z_plus. change (inject_Z 1) with 1. field. }
  assert (EX : evenly (a + (inject_Z (Z.of_nat pad) + (1 # 2)) * d) d (gr_x g)).
  { intros i v Hv. rewrite Ex, Fx in Hv. assert (Hi : (i < mx)%nat) by (rewrite <- cx1; apply nth_error_Some; congruence).
    rewrite cx2 in Hv by auto. injection Hv as <-. apply (C _ _ _ mx); auto. }
  assert (EY : evenly (a' + (inject_Z (Z.of_nat pad) + (1 # 2)) * d' + inject_Z (Z.of_nat (my - 1)) * d') (- d') (gr_y g)).
  { intros i v Hv. rewrite Ey, Fy in Hv.
    assert (Hi : (i < my)%nat) by (rewrite <- cy1; rewrite <- rev_length; apply nth_error_Some; congruence).
    rewrite nth_error_rev in Hv by lia. rewrite cy1 in Hv. rewrite cy2 in Hv by lia. injection Hv as <-. rewrite (C _ _ _ my _ Ev' LY) by lia.
    replace (Z.of_nat (my - 1 - i)) with (Z.of_nat (my - 1) - Z.of_nat i)%Z by lia. unfold Z.sub. rewrite inject_Z_plus, inject_Z_opp. ring. }
  destruct (nth_error (of_x f) c) as [x|] eqn:Hx; [|exfalso; rewrite Fx in Hx; rewrite cx2 in Hx by auto; discriminate].
  destruct (nth_error (of_y f) r) as [y|] eqn:Hy.
  2:{ exfalso. apply nth_error_None in Hy. rewrite Fy, rev_length in Hy. lia. }
  exists x, y. split; auto. split; auto. rewrite <- Ex in Hx. rewrite <- Ey in Hy.
  destruct (C83_drawn_near_coordinates_partial g p _ _ _ _ r c x y P Hh Hd EX Hd' EY Hx Hy) as (_ & _ & A & B). auto.
Qed.
Print Assumptions C83_written_image_partial.

(** * plot_glm of the examples *)
Lemma fill_stored : forall g t f t' f' r c v, stored g t' f' r c v ->
  stored (fill_field t f g) t' f' r c (if (Z.eqb t' t && String.eqb f' f)%bool then Some (zero_nan v) else v).
Proof.
  intros g t f t' f' r c v (Hf & pre & fr & post & E & Et & K & Ev). split; [exact Hf|].
  assert (T : forall fr, fr_time (fill_frame t f fr) = fr_time fr) by (intros x; unfold fill_frame; destruct (fr_time x =? t)%Z; reflexivity).
  exists (map (fill_frame t f) pre), (fill_frame t f fr), (map (fill_frame t f) post).
  cbn [fill_field gr_series s_frames]. rewrite E, map_app. cbn [map]. split; [reflexivity|]. split; [rewrite T; auto|]. split.
  - rewrite <- map_app. apply Forall_map. eapply Forall_impl; [|exact K]. intros b Hb. rewrite T. exact Hb.
  - unfold fill_frame. rewrite Et. destruct (Z.eqb_spec t' t); cbn [fr_at andb]; [|exact Ev].
    destruct (String.eqb_spec f' f); cbn [fr_at]; rewrite Ev; auto.
Qed.
Lemma fold_stored : forall t rows cols l g s0 g' ps, fold_res (plot_glm_step t rows cols) l (g, s0) = Ok (g', ps) ->
  forall t' f' r c v, stored g t' f' r c v -> exists w, stored g' t' f' r c w /\
    (In f' (map snd l) -> t' = t -> w = Some (zero_nan v)) /\ (w = v \/ w = Some (zero_nan v)).
Proof.
  induction l as [|[j f] l IH]; intros g s0 g' ps H t' f' r c v S; cbn [fold_res] in H.
  - injection H as <- <-. exists v. split; auto. split; auto. intros [].
  - unfold plot_glm_step in H at 1. cbn [fst snd] in H. destruct (plot_field _ _ _ _ _ _) as [p|]; [|discriminate]. cbn [bind] in H.
    pose proof (fill_stored _ t f _ _ _ _ _ S) as S1.
    destruct (IH _ _ _ _ H _ _ _ _ _ S1) as (w & W1 & W2 & W3). exists w. split; auto.
    destruct ((t' =? t)%Z && String.eqb f' f)%bool eqn:E.
    + apply andb_prop in E. destruct E as [E1 E2]. cbn [zero_nan] in *. split; [|intuition auto]. intros _ _. destruct W3; auto.
    + split; [|exact W3]. intros [K|K] Ht; [|auto]. cbn in K. subst. rewrite Z.eqb_refl, String.eqb_refl in E. discriminate.
Qed.
(** The plotting function of the examples writes zero over every missing value of the images it shows, when the
    dataset is held in memory; plot_glm_grid works on a copy (C83_panels_show_the_data). *)
Theorem C83_example_keeps_data_refuted : forall g t fields rows cols g' ps f r c,
  plot_glm g t fields rows cols = Ok (g', ps) -> In f fields -> stored g t f r c None -> stored g' t f r c (Some 0).
Proof.
  intros g t fields rows cols g' ps f r c H Hf S. unfold plot_glm in H.
  destruct (amin (gr_x g)); [|discriminate]. destruct (amin (gr_y g)); [|discriminate]. cbn [bind] in H.
  destruct (fold_res _ _ _) as [[g1 p1]|] eqn:E; [|discriminate]. cbn [bind snd] in H. destruct p1; [discriminate|]. injection H as <- <-.
  destruct (fold_stored _ _ _ _ _ _ _ _ E _ _ _ _ _ S) as (w & W1 & W2 & _). rewrite W2 in W1; auto.
  apply In_nth_error in Hf. destruct Hf as [i Hi]. apply in_map_iff. exists (i, f). split; auto.
  apply nth_error_In with i. apply nth_enumerate. auto.
Qed.
Print Assumptions C83_example_keeps_data_refuted.

(** * Captions and colours *)
(** The name of a field in words: each word with a capital, joined by blanks. *)
Definition upper (c : ascii) : ascii :=
  let n := nat_of_ascii c in if (Nat.leb 97 n && Nat.leb n 122)%bool then ascii_of_nat (n - 32) else c.
Fixpoint words (start : bool) (s : string) : string :=
  match s with
  | EmptyString => EmptyString
  | String c r => if Ascii.eqb c "_"%char then String " "%char (words true r)
                  else String (if start then upper c else c) (words false r)
  end.
(** The last word of the name tells what is shown: a number of things, an energy or an area.  Each has its unit
    and the low end of its colours. *)
Inductive shows : string -> string -> Q -> Prop :=
| shows_count f pre : f = (pre ++ "_density")%string -> shows f "count" 1
| shows_energy f pre : f = (pre ++ "_energy")%string -> shows f "nJ" (1 # 100000000)
| shows_area f pre : f = (pre ++ "_area")%string -> shows f "km$^2$" 50.
Definition letter (i : nat) : string := String (ascii_of_nat (97 + i)) EmptyString.

Lemma panel_params : forall g t fields rows cols g' ps i f p, plot_glm_grid g t fields rows cols = Ok (g', ps) ->
  nth_error fields i = Some f -> nth_error ps i = Some p ->
  exists q, assoc f display_params = Ok q /\ pn_label p = p_label q /\ pn_vmin p = p_vmin q /\ pn_vmax p = p_vmax q /\
    nth_error panel_labels i = Some (pn_letter p).
Proof.
  intros g t fields rows cols g' ps i f p H Hf Hp. apply plot_panels in H. destruct H as (-> & _ & H). apply F2_nth in H. destruct H as [L H].
  specialize (H i (i, f) p (proj2 (nth_enumerate _ fields i (i, f)) (conj eq_refl Hf)) Hp). cbn [fst snd] in H.
  destruct (plot_field_inv _ _ _ _ _ _ _ H) as (pr & fr & l & m & A & S & Hl & _ & _ & _ & M & x0 & x1 & y0 & y1 & _ & _ & _ & _ & ->).
  exists pr. cbn [pn_label pn_vmin pn_vmax pn_letter]. split; [|auto].
  clear - A. cbn in A. repeat (destruct A as [A|A]; [injection A as <- <-; reflexivity|]). contradiction.
Qed.
(** Every panel has the letter of its place, and, except for event_density, names the satellite, the
    field and its unit.  Its colours are a logarithmic scale with valid limits that depend on the field alone: counts
    from one. *)
Theorem C83_captions_partial : forall g t fields rows cols g' ps i f p,
  plot_glm_grid g t fields rows cols = Ok (g', ps) -> nth_error fields i = Some f -> nth_error ps i = Some p ->
  pn_letter p = letter i /\ 0 < pn_vmin p < pn_vmax p /\
  (exists unit low, shows f unit low /\ pn_vmin p == low /\
    (f <> "event_density"%string -> pn_label p = ("GOES-16 GLM " ++ words true f ++ " (" ++ unit ++ ")")%string)) /\
  (forall g1 t1 fields1 rows1 cols1 g1' ps1 i1 p1,
     plot_glm_grid g1 t1 fields1 rows1 cols1 = Ok (g1', ps1) -> nth_error fields1 i1 = Some f -> nth_error ps1 i1 = Some p1 ->
     pn_vmin p1 = pn_vmin p /\ pn_vmax p1 = pn_vmax p /\ pn_label p1 = pn_label p).
Proof.
  intros g t fields rows cols g' ps i f p H Hf Hp. destruct (panel_params _ _ _ _ _ _ _ _ _ _ H Hf Hp) as (q & A & B & C & D & E).
  split.
  { clear - E. do 12 (destruct i as [|i]; [cbn in E; injection E as <-; reflexivity|]). cbn in E. destruct i; discriminate. }
  split; [|split].
  - rewrite C, D. clear - A. unfold display_params in A. cbn [assoc] in A.
    repeat match type of A with (if ?b then _ else _) = _ => destruct b; [injection A as <-; cbn; split; reflexivity|] end. discriminate.
  - rewrite B, C. clear - A. unfold display_params in A. cbn [assoc] in A.
    repeat match type of A with (if String.eqb ?a ?b then _ else _) = _ => 
      destruct (String.eqb_spec a b) as [<-|_] || destruct (String.eqb_spec a b) as [->|_]; [injection A as <-; cbn [p_label p_vmin] | ] end;
    [..|discriminate].
    all: let tac := (split; [solve [ apply (shows_count _ "flash_centroid"); reflexivity | apply (shows_count _ "flash_extent"); reflexivity
                     | apply (shows_count _ "group_centroid"); reflexivity | apply (shows_count _ "group_extent"); reflexivity
                     | apply (shows_count _ "event"); reflexivity | apply (shows_energy _ "total"); reflexivity
                     | apply (shows_area _ "average_flash"); reflexivity | apply (shows_area _ "average_group"); reflexivity
                     | apply (shows_area _ "minimum_flash"); reflexivity ]
              | split; [reflexivity|intros N; first [reflexivity | congruence]]]) in
      first [ solve [exists "count"%string, 1; tac] | solve [exists "nJ"%string, (1 # 100000000); tac] | solve [exists "km$^2$"%string, 50; tac] ].
  - intros g1 t1 f1 r1 c1 g1' ps1 i1 p1 H1 Hf1 Hp1. destruct (panel_params _ _ _ _ _ _ _ _ _ _ H1 Hf1 Hp1) as (q1 & A1 & B1 & C1 & D1 & _).
    assert (q1 = q) as -> by congruence. repeat split; congruence.
Qed.
Print Assumptions C83_captions_partial.
(** The panel of event_density is named after another product. *)
Theorem C83_event_caption_refuted : forall g t fields rows cols g' ps i p,
  plot_glm_grid g t fields rows cols = Ok (g', ps) -> nth_error fields i = Some "event_density"%string -> nth_error ps i = Some p ->
  pn_label p = ("GOES-16 GLM " ++ words true "group_extent_density" ++ " (count)")%string.
Proof.
  intros g t fields rows cols g' ps i p H Hf Hp. destruct (panel_params _ _ _ _ _ _ _ _ _ _ H Hf Hp) as (q & A & -> & _).
  vm_compute in A. injection A as <-. reflexivity.
Qed.
Print Assumptions C83_event_caption_refuted.

(** * Examples *)
Definition ex_frame (t : Z) : frame (nat * nat) :=
  mkFrame t (fun v p => match p with (O, O) => Some (inject_Z t) | (S O, S O) => Some (7 # 2) | (S O, O) => None | _ => Some 2 end).
Definition ex_grids : gridded :=
  mkGridded [0; 1 # 10; 2 # 10] [1 # 10; 0] 100
    (mkSeries ["flash_extent_density"; "minimum_flash_area"]%string [ex_frame 5; ex_frame 3]).
Example C83_ex : exists p q, plot_glm_grid ex_grids 3 ["flash_extent_density"; "minimum_flash_area"]%string 1 2 = Ok (ex_grids, [p; q]) /\
  panel_of ex_grids p /\ pn_max p = 7 # 2 /\ pn_shown p 1%nat 0%nat = 0 /\ pn_letter q = "b"%string /\ drawn_x p 0 == 10 # 3 /\ drawn_x p 1 == 10 /\
  drawn_y p 0 == 15 # 2.
Proof.
  destruct (plot_glm_grid ex_grids 3 ["flash_extent_density"; "minimum_flash_area"]%string 1 2) as [[g' ps]|] eqn:E; [|vm_compute in E; discriminate].
  pose proof E as E'. vm_compute in E. injection E as <- <-. do 2 eexists. split; [reflexivity|]. split.
  { do 6 eexists. split; [exact E'|]. left. reflexivity. }
  repeat split; vm_compute; reflexivity.
Qed.
Example C83_hypotheses : evenly 0 (1 # 10) (gr_x ex_grids) /\ evenly (1 # 10) (- (1 # 10)) (gr_y ex_grids) /\
  stored ex_grids 3 "minimum_flash_area" 1 0 None /\
  exists g' ps, plot_glm ex_grids 3 ["minimum_flash_area"]%string 1 2 = Ok (g', ps).
Proof.
  repeat split.
  - intros [|[|[|i]]] v H; cbn in H; [injection H as <-; reflexivity ..|destruct i; discriminate].
  - intros [|[|i]] v H; cbn in H; [injection H as <-; reflexivity ..|destruct i; discriminate].
  - cbn; auto.
  - exists [ex_frame 5], (ex_frame 3), []. repeat split. constructor; [cbn; lia|constructor].
  - destruct (plot_glm ex_grids 3 ["minimum_flash_area"]%string 1 2) as [[g' ps]|] eqn:E; [eauto|vm_compute in E; discriminate].
Qed.
Example C83_ex_captions : exists p q, plot_glm_grid (mkGridded [0; 1 # 10] [0] 100 (mkSeries ["event_density"; "average_flash_area"]%string [ex_frame 3]))
    3 ["average_flash_area"; "event_density"]%string 1 2 = Ok (mkGridded [0; 1 # 10] [0] 100 (mkSeries ["event_density"; "average_flash_area"]%string [ex_frame 3]), [p; q]) /\
  pn_letter q = "b"%string /\ pn_label p = "GOES-16 GLM Average Flash Area (km$^2$)"%string /\ pn_label q = "GOES-16 GLM Group Extent Density (count)"%string.
Proof. do 2 eexists. repeat split; vm_compute; reflexivity. Qed.
