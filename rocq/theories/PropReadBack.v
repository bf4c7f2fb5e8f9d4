(** C66: imagery that is written, opened again as a series and aggregated. *)
From Coq Require Import List ZArith QArith Qabs Qround Bool Ascii String Lia Lqa.
From Verif Require Import Base BaseProofs Glm GlmProofs3 Lut LutProofs FileName FileNameSpec FileNameProofs FileNameProofs2 GridSetup GridSetupSpec Imagery ImagerySpec ImageryProofs PropImagery Aggregate AggregateSpec AggregateProofs PropAggregate Output OutputSpec OutputProofs OutputProofs2 OutputProofs3 OutputProofs4 PropOutput.
Import ListNotations.
Open Scope nat_scope.

Lemma map_res_pairs : forall A B C (g : B -> res C) (h : A -> C) (l : list A) (ps : list B), Forall2 (fun p a => g p = Ok (h a)) ps l -> map_res g ps = Ok (map h l).
Proof. intros A B C g h l ps H. induction H as [|p a ps l E H IH]; [reflexivity|]. cbn. rewrite E. cbn. rewrite IH. reflexivity. Qed.
Lemma F2_impl : forall A B (P Q : A -> B -> Prop), (forall a b, P a b -> Q a b) -> forall l m, Forall2 P l m -> Forall2 Q l m.
Proof. intros A B P Q H l m F. induction F; constructor; auto. Qed.
Lemma find_field : forall (l : list (string * list (list fval))) i name rws, NoDup (map fst l) -> nth_error l i = Some (name, rws) ->
  find (fun e => String.eqb (fst e) name) l = Some (name, rws).
Proof.
  induction l as [|[n v] l IH]; intros [|i] name rws ND H; cbn in H; try discriminate.
  - inversion H; subst. cbn. rewrite String.eqb_refl. reflexivity.
  - cbn in ND. inversion ND as [|a b N1 N2]; subst. cbn [find fst]. destruct (String.eqb_spec n name) as [->|_]; [|apply (IH i); auto].
    exfalso. apply N1. apply in_map_iff. exists (name, rws). split; [reflexivity|]. eapply nth_error_In; eauto.
Qed.
Lemma field_at_pixel : forall f i name r c w, NoDup (map fst (of_fields (nc_out f))) -> nth_error (map fst (of_fields (nc_out f))) i = Some name ->
  pixel_of (nc_out f) i r c w -> field_at f name (r, c) = w.
Proof.
  intros f i name r c w ND HN (n & rws & row & A & B & C). rewrite nth_error_map, A in HN. cbn [option_map fst] in HN. assert (n = name) by congruence. subst n.
  unfold field_at. rewrite (find_field _ i name rws ND A). cbn [fst snd]. rewrite (nth_error_nth _ _ _ B), (nth_error_nth _ _ _ C). reflexivity.
Qed.

Lemma consecutive_fun : forall P minutes lo1 hi1 lo2 hi2 (ivs : list (interval P)), consecutive minutes lo1 ivs hi1 -> consecutive minutes lo2 ivs hi2 -> ivs <> [] -> lo1 = lo2 /\ hi1 = hi2.
Proof.
  intros P minutes lo1 hi1 lo2 hi2 ivs K1. revert lo2 hi2. induction K1 as [|iv ivs1 hi1 EE K1 IH]; intros lo2 hi2 K2 NE; [congruence|]. inversion K2 as [|iv2 ivs2 hi2' EE2 K2' Hlo Hiv Hhi]; subst. split; [reflexivity|].
  destruct ivs1 as [|iv' ivs1]; [inversion K1; inversion K2'; congruence|]. apply (IH _ _ K2'). discriminate.
Qed.

(** * C66 *)
(** The files of any frames, in any order, opened again: a series with the same fields,
    one frame for each file in this order at the time the frame starts, and in it the
    pixels of the file; the attributes are the first start and the last end. *)
Theorem C66_reading_back : forall j outgrids fs after fs' paths ps ks, saves j outgrids fs after fs' paths -> dated 1678 2261 j -> NoDup (gd_names (j_gd j)) ->
  (forall k k' p p', k <> k' -> nth_error paths k = Some p -> nth_error paths k' = Some p' -> ~ same_path p p') ->
  Forall2 (fun p k => nth_error paths k = Some p) ps ks -> ps <> [] ->
  exists files g first last, writes (j_gd j) (j_pad j) (j_scaled j) (j_mx j) (j_my j) outgrids after (map nc_out files) /\
    open_glm_time_series fs' ps = Ok (g, first, last) /\ s_vars g = gd_names (j_gd j) /\ List.length (s_frames g) = List.length ks /\
    (forall n k, nth_error ks n = Some k -> exists s e fr f, frame_times j k s e /\ nth_error (s_frames g) n = Some fr /\ fr_time fr = instant s /\ nth_error files k = Some f /\
       forall i name r c w, nth_error (gd_names (j_gd j)) i = Some name -> pixel_of (nc_out f) i r c w -> fr_at fr name (r, c) = w) /\
    (exists k s e, In k ks /\ frame_times j k s e /\ first = instant s) /\
    (exists k s e, In k ks /\ frame_times j k s e /\ last = instant e) /\
    forall k s e, In k ks -> frame_times j k s e -> (first <= instant s /\ instant e <= last)%Z.
Proof.
  intros j og fs af fs' paths ps ks SV [DT _] ND DP F2 NE. destruct (saves_spec _ _ _ _ _ _ SV) as (files & W & L1 & L2 & P & F & _).
  destruct (writes_files _ _ _ _ _ _ _ _ W) as (_ & FF & _).
  set (d0 := mkNc (mkOut [] [] [] []) (mkAttrs [] [] [] [] [] [] [] [] []) [] []).
  set (file := fun k => nth k files d0). set (T := gd_tedges (j_gd j)) in *.
  set (st := fun k => j_stamp j (nth k T 0%Q)). set (en := fun k => j_stamp j (nth (S k) T 0%Q)).
  assert (K : forall p k, nth_error paths k = Some p -> open_file fs' p = Ok (file k) /\ nth_error files k = Some (file k) /\
            frame_times j k (st k) (en k) /\ timestamp (at_start (nc_attrs (file k))) = Ok (st k) /\ timestamp (at_end (nc_attrs (file k))) = Ok (en k) /\
            map fst (of_fields (nc_out (file k))) = gd_names (j_gd j) /\
            nc_x (file k) = map (pack_coord x_enc) (slice_list (slices j) (centers (gd_xedge (j_gd j)))) /\ nc_y (file k) = map (pack_coord y_enc) (rev (slice_list (slices j) (centers (gd_yedge (j_gd j)))))).
  { intros p k Hp. assert (Hk : k < List.length files) by (rewrite L1; apply nth_error_Some; congruence). pose proof (nth_error_nth' files d0 Hk) as Ef. fold (file k) in Ef.
    destruct (P k _ Ef) as (t0 & t1 & s & T0 & T1 & Es & M). rewrite Hp in Es. assert (s = p) by congruence. subst s.
    assert (E0 : st k = j_stamp j t0) by (unfold st; rewrite (nth_error_nth _ _ _ T0); reflexivity). assert (E1 : en k = j_stamp j t1) by (unfold en; rewrite (nth_error_nth _ _ _ T1); reflexivity).
    destruct (DT t0 (edge_in _ _ _ T0)) as [V0 Y0]. destruct (DT t1 (edge_in _ _ _ T1)) as [V1 Y1].
    split. { assert (H : holds fs' p (file k)) by (apply (found j og fs af fs' paths files SV L1 F k p _ Hp Ef); intros k' p' Lk Hp'; apply (DP k k'); auto; lia). unfold holds in H. unfold open_file. rewrite H. reflexivity. }
    split; [exact Ef|]. split; [exists t0, t1; auto|]. destruct M as [_ _ m1 m2 _ _ _ _ mx my _ _]. rewrite m1, m2, E0, E1.
    split; [apply timestamp_isoformat; auto; [eapply valid_weaken; [|exact V0]; lia|destruct V0; lia]|]. split; [apply timestamp_isoformat; auto; [eapply valid_weaken; [|exact V1]; lia|destruct V1; lia]|].
    assert (SF : shows_frame (j_gd j) (slices j) (slices j) (j_scaled j) (j_mx j + 2 * j_pad j) (j_my j + 2 * j_pad j) og k (nc_out (file k))) by (apply FF; rewrite nth_error_map, Ef; reflexivity).
    split; [apply SF|]. split; [exact mx|exact my]. }
  assert (IN : forall k, In k ks -> exists p, nth_error paths k = Some p).
  { intros k Hk. clear - F2 Hk. induction F2 as [|p k0 ps ks E F2 IH]; [destruct Hk|]. destruct Hk as [<-|Hk]; eauto. }
  set (mk := fun k => mkFile (instant (st k)) (instant (en k)) (gd_names (j_gd j)) (field_at (file k))).
  assert (R1 : map_res (fun p => f <- open_file fs' p ;; timestamp (at_start (nc_attrs f))) ps = Ok (map st ks)).
  { apply map_res_pairs. eapply F2_impl; [|exact F2]. intros p k Hp. cbn. destruct (K p k Hp) as (-> & _ & _ & E & _). exact E. }
  assert (R2 : map_res (fun p => f <- open_file fs' p ;; timestamp (at_end (nc_attrs f))) ps = Ok (map en ks)).
  { apply map_res_pairs. eapply F2_impl; [|exact F2]. intros p k Hp. cbn. destruct (K p k Hp) as (-> & _ & _ & _ & E & _). exact E. }
  assert (R3 : map_res (open_file fs') ps = Ok (map file ks)).
  { apply map_res_pairs. eapply F2_impl; [|exact F2]. intros p k Hp. apply (K p k Hp). }
  assert (CB : forallb (fun f => match map file ks with f0 :: _ => coords_eqb f0 f | [] => true end) (map file ks) = true).
  { apply forallb_forall. intros f Hf. apply in_map_iff in Hf. destruct Hf as (k & <- & Hk). destruct ks as [|k0 ks]; [destruct Hk|]. cbn [map].
    destruct (IN k Hk) as (p & Hp). destruct (IN k0 (or_introl eq_refl)) as (p0 & Hp0). destruct (K p k Hp) as (_ & _ & _ & _ & _ & _ & X1 & Y1). destruct (K p0 k0 Hp0) as (_ & _ & _ & _ & _ & _ & X0 & Y0).
    unfold coords_eqb. rewrite X0, X1, Y0, Y1. destruct (list_eq_dec _ _ _); [|congruence]. destruct (list_eq_dec _ _ _); [reflexivity|congruence]. }
  assert (MK : map (fun fse => let '(f, s, e) := fse in mkFile (instant s) (instant e) (map fst (of_fields (nc_out f))) (field_at f)) (combine (combine (map file ks) (map st ks)) (map en ks)) = map mk ks).
  { clear - K IN. induction ks as [|k ks IH]; [reflexivity|]. cbn [map combine]. rewrite IH by (intros k' Hk'; apply IN; right; exact Hk'). f_equal. unfold mk. destruct (IN k (or_introl eq_refl)) as (p & Hp). destruct (K p k Hp) as (_ & _ & _ & _ & _ & -> & _). reflexivity. }
  assert (KS : ks <> []) by (intros ->; inversion F2; congruence).
  assert (OP : exists g first last, open_series (map mk ks) = Ok (g, first, last) /\ s_vars g = gd_names (j_gd j)).
  { destruct ks as [|k ks]; [congruence|]. do 3 eexists. split; [reflexivity|]. reflexivity. }
  destruct OP as (g & first & last & OP & SVV). exists files, g, first, last. split; [exact W|]. split.
  { unfold open_glm_time_series. rewrite R1. cbn [bind]. rewrite R2. cbn [bind]. rewrite R3. cbn [bind]. rewrite MK. destruct (map file ks) as [|f0 r] eqn:EM; [destruct ks; [congruence|discriminate EM]|].
    change (fun f => coords_eqb f0 f) with (coords_eqb f0) in CB. rewrite CB. cbn [negb]. exact OP. }
  split; [exact SVV|]. destruct (C54_series_of_files _ _ _ _ _ OP) as (LF & FR & (a & Ha & Ea) & (b & Hb & Eb) & BB). rewrite map_length in LF. split; [exact LF|].
  split; [|split; [|split]].
  - intros n k Hn. destruct (IN k (nth_error_In _ _ Hn)) as (p & Hp). destruct (K p k Hp) as (_ & Ef & FT & _ & _ & NM & _).
    destruct (FR n (mk k)) as (fr & Hfr & Tf & Af); [rewrite nth_error_map, Hn; reflexivity|]. exists (st k), (en k), fr, (file k). split; [exact FT|]. split; [exact Hfr|]. split; [exact Tf|]. split; [exact Ef|].
    intros i name r c w Hi PX. rewrite Af. cbn [mk if_at]. apply (field_at_pixel _ i); rewrite ?NM; auto.
  - apply in_map_iff in Ha. destruct Ha as (k & <- & Hk). destruct (IN k Hk) as (p & Hp). destruct (K p k Hp) as (_ & _ & FT & _). exists k, (st k), (en k). auto.
  - apply in_map_iff in Hb. destruct Hb as (k & <- & Hk). destruct (IN k Hk) as (p & Hp). destruct (K p k Hp) as (_ & _ & FT & _). exists k, (st k), (en k). auto.
  - intros k s e Hk (t0 & t1 & T0 & T1 & -> & ->). specialize (BB (mk k) (in_map mk _ _ Hk)). cbn [mk if_start if_end] in BB. unfold st, en, T in BB. rewrite (nth_error_nth _ _ _ T0), (nth_error_nth _ _ _ T1) in BB. exact BB.
Qed.
Print Assumptions C66_reading_back.

(** The frames as read back: their times, and what they show at a pixel. *)
Lemma read_frames : forall j outgrids fs after fs' paths g first last i name r c v,
  saves j outgrids fs after fs' paths -> dated 1678 2261 j -> NoDup (gd_names (j_gd j)) ->
  (forall k k' p p', k <> k' -> nth_error paths k = Some p -> nth_error paths k' = Some p' -> ~ same_path p p') ->
  open_glm_time_series fs' paths = Ok (g, first, last) ->
  nth_error (gd_names (j_gd j)) i = Some name -> gd_divide (j_gd j) i = None -> r < j_my j -> c < j_mx j ->
  (forall k, k < List.length paths -> cell outgrids i (j_pad j + c) (j_pad j + (j_my j - 1 - r)) k (Some (v k)) /\ storable (steps (j_gd j) (j_scaled j) i) (v k)) ->
  List.length (s_frames g) = List.length paths /\
  (forall k, k < List.length paths -> exists fr, nth_error (s_frames g) k = Some fr /\ fr_time fr = start_of j k /\ (or0 (fr_at fr name (r, c)) == v k)%Q) /\
  (exists k, k < List.length paths /\ first = start_of j k) /\ (forall k, k < List.length paths -> (first <= start_of j k)%Z).
Proof.
  intros j og fs af fs' paths g first last i name r c v SV DT ND DP OP Hi GD Hr Hc HV.
  assert (F2 : Forall2 (fun p k => nth_error paths k = Some p) paths (seq 0 (List.length paths))).
  { assert (G : forall pre l : list pystr, Forall2 (fun p k => nth_error (pre ++ l) k = Some p) l (seq (List.length pre) (List.length l))).
    { intros pre l. revert pre. induction l as [|p l IH]; intros pre; [constructor|]. cbn [List.length seq]. constructor; [rewrite nth_error_app2, Nat.sub_diag; auto|].
      specialize (IH (pre ++ [p])). rewrite <- app_assoc, app_length in IH. cbn [List.length] in IH. rewrite Nat.add_1_r in IH. exact IH. }
    apply (G []). }
  assert (NE : paths <> []) by (intros ->; cbn in OP; discriminate OP).
  destruct (C66_reading_back j og fs af fs' paths paths _ SV DT ND DP F2 NE) as (files & g' & first' & last' & W & OP' & VG & LG & FR & FI & _ & BB).
  assert (g' = g /\ first' = first) as [-> ->] by (split; congruence). rewrite seq_length in LG.
  assert (ST : forall k s e, frame_times j k s e -> start_of j k = instant s) by (intros k s e (t0 & t1 & T0 & _ & -> & _); unfold start_of; rewrite (nth_error_nth _ _ _ T0); reflexivity).
  assert (FK : forall k, k < List.length paths -> exists fr, nth_error (s_frames g) k = Some fr /\ fr_time fr = start_of j k /\ (or0 (fr_at fr name (r, c)) == v k)%Q).
  { intros k Hk. destruct (FR k k) as (s & e & fr & f & FT & Hfr & Tf & Ef & PX); [apply nth_error_seq; exact Hk|]. exists fr. split; [exact Hfr|]. split; [rewrite Tf; symmetry; eapply ST; eauto|].
    destruct (HV k Hk) as [CE SB]. destruct (writes_files _ _ _ _ _ _ _ _ W) as (_ & FF & _). destruct (FF k (nc_out f)) as (_ & _ & _ & _ & Px); [rewrite nth_error_map, Ef; reflexivity|].
    rewrite !pad_lo, !pad_len in Px. apply cell_at in CE. destruct CE as [LI CE]. specialize (Px i r c LI Hr Hc). unfold value in Px. rewrite GD, CE in Px.
    rewrite (PX i name r c _ Hi Px). clear PX Px. destruct W as (_ & _ & _ & _ & _ & LN & _).
    destruct (sc_of_scaling (j_gd j) (j_scaled j) i ltac:(lia)) as [-> ES]. rewrite ES in SB. pose proof (step_pos (nth i (gd_names (j_gd j)) EmptyString)) as SP. set (nm := nth i (gd_names (j_gd j)) EmptyString) in *.
    destruct (final_shows (j_scaled j) nm (v k)) as [Z P]. destruct (Qlt_le_dec 0 (v k)) as [PV|NV].
    - specialize (P PV). destruct (if j_scaled j then step nm else None) as [s0|] eqn:E0; cbn in SB, P.
      + destruct SB as (m & Rm & Em). destruct (j_scaled j); [|discriminate E0]. specialize (SP s0 E0). destruct P as (u & -> & _ & _ & EX).
        * rewrite Em. apply Qmult_le_compat_r; [|lra]. change 65535%Q with (inject_Z 65535). rewrite <- Zle_Qle. lia.
        * cbn [or0]. apply (EX m). exact Em.
      + destruct P as (u & -> & Eu). exact Eu.
    - assert (E0 : (v k == 0)%Q).
      { destruct (if j_scaled j then step nm else None) as [s0|] eqn:E0; cbn in SB; [|lra]. destruct SB as (m & Rm & Em). destruct (j_scaled j); [|discriminate E0]. specialize (SP s0 E0).
        assert (0 <= inject_Z m)%Q by (change 0%Q with (inject_Z 0); rewrite <- Zle_Qle; lia). assert (0 <= inject_Z m * s0)%Q by (apply Qmult_le_0_compat; lra). lra. }
      rewrite (Z E0). cbn [or0]. symmetry. exact E0. }
  assert (PT : forall k, k < List.length paths -> exists s e, frame_times j k s e) by (intros k Hk; destruct (FR k k) as (s & e & _ & _ & FT & _); [apply nth_error_seq; exact Hk|eauto]).
  assert (FB : forall k, k < List.length paths -> (first <= start_of j k)%Z).
  { intros k Hk. destruct (PT k Hk) as (s & e & FT). rewrite (ST _ _ _ FT). apply (BB k s e); auto. apply in_seq. lia. }
  split; [exact LG|]. split; [exact FK|]. split; [|exact FB].
  destruct FI as (k & s & e & Hk & FT & ->). apply in_seq in Hk. exists k. split; [lia|]. symmetry. eapply ST; eauto.
Qed.
(** Nothing that is counted is lost on the way: a summed field that holds whole numbers of
    its storage steps, written, opened and aggregated, has in the intervals together what
    the gridded arrays hold in the frames that start after the first one. *)
Theorem C66_counts_survive_partial : forall j outgrids fs after fs' paths g first last minutes out i name r c v,
  saves j outgrids fs after fs' paths -> dated 1678 2261 j -> NoDup (gd_names (j_gd j)) ->
  (forall k k' p p', k <> k' -> nth_error paths k = Some p -> nth_error paths k' = Some p' -> ~ same_path p p') ->
  open_glm_time_series fs' paths = Ok (g, first, last) -> aggregate g minutes None = Ok out ->
  nth_error (gd_names (j_gd j)) i = Some name -> summable name -> gd_divide (j_gd j) i = None -> r < j_my j -> c < j_mx j ->
  (forall k, k < List.length paths -> cell outgrids i (j_pad j + c) (j_pad j + (j_my j - 1 - r)) k (Some (v k)) /\ storable (steps (j_gd j) (j_scaled j) i) (v k)) ->
  (exists k, k < List.length paths /\ first = start_of j k) /\ (forall k, k < List.length paths -> (first <= start_of j k)%Z) /\
  (qsum (map (fun iv => or0 (iv_at iv name (r, c))) out) == qsum (map v (filter (fun k => first <? start_of j k)%Z (seq 0 (List.length paths)))))%Q.
Proof.
  intros j og fs af fs' paths g first last minutes out i name r c v SV DT ND DP OP AG Hi SM GD Hr Hc HV.
  destruct (read_frames j og fs af fs' paths g first last i name r c v SV DT ND DP OP Hi GD Hr Hc HV) as (LG & FK & FI & FB).
  split; [exact FI|split; [exact FB|]].
  destruct (C40_totals_partial _ g minutes None out AG) as (lo & hi & CO & TT). rewrite (TT name (r, c) SM). clear TT.
  destruct (C40_each_frame_once_partial _ g minutes None out AG) as (lo' & hi' & CO' & Hm & ((f1 & Hf1 & E1) & RG) & _).
  assert (NO : out <> []) by (destruct (aggregate_inv _ g minutes None out AG) as (_ & _ & _ & _ & _ & _ & _ & _ & (iv & _ & Hiv & _)); intros ->; destruct Hiv).
  destruct (consecutive_fun _ _ _ _ _ _ _ CO CO' NO) as [<- <-].
  assert (EL : lo = first).
  { apply In_nth_error in Hf1. destruct Hf1 as (k1 & Hk1). assert (L1 : k1 < List.length paths) by (rewrite <- LG; apply nth_error_Some; congruence).
    destruct (FK k1 L1) as (fr & Hfr & Tf & _). assert (fr = f1) by congruence. subst fr. pose proof (FB k1 L1).
    destruct FI as (k & Hk & EF). destruct (FK k Hk) as (fr & Hfr' & Tf' & _). pose proof (RG fr (nth_error_In _ _ Hfr')). lia. }
  rewrite EL. assert (RH : forall fr, In fr (s_frames g) -> (fr_time fr <= hi)%Z) by (intros fr Hfr; specialize (RG fr Hfr); lia).
  clear - FK LG RH.
  assert (G : forall frs n, (forall fr, In fr frs -> (fr_time fr <= hi)%Z) -> (forall k, k < List.length frs -> exists fr, nth_error frs k = Some fr /\ fr_time fr = start_of j (n + k) /\ (or0 (fr_at fr name (r, c)) == v (n + k)%nat)%Q) ->
    (total (fun f => fr_at f name (r, c)) (filter (coverb first hi) frs) == qsum (map v (filter (fun k => first <? start_of j k)%Z (seq n (List.length frs)))))%Q).
  { clear. induction frs as [|fr frs IH]; intros n RH FK; [reflexivity|]. cbn [List.length seq filter]. destruct (FK 0 ltac:(cbn; lia)) as (fr' & E & Tf & Vf). cbn in E. assert (fr' = fr) by congruence. subst fr'. rewrite Nat.add_0_r in Tf, Vf.
    specialize (IH (S n) (fun f H => RH f (or_intror H))). assert (IH' : _) by (apply IH; intros k Hk; destruct (FK (S k) ltac:(cbn; lia)) as (f & A & B & C); exists f; replace (S n + k) with (n + S k) by lia; auto).
    unfold coverb at 1. rewrite Tf. pose proof (RH fr (or_introl eq_refl)) as Rf. replace (start_of j n <=? hi)%Z with true by (symmetry; apply Z.leb_le; lia). rewrite andb_true_r.
    destruct (first <? start_of j n)%Z; [|exact IH']. cbn [map total]. change (qsum (?x :: ?l)) with (x + qsum l)%Q. rewrite Vf, IH'. reflexivity. }
  specialize (G (s_frames g) 0 RH). rewrite LG in G. apply G. intros k Hk. apply FK. exact Hk.
Qed.
Print Assumptions C66_counts_survive_partial.

(** Three frames of three fields, read back and added up over five minutes: the frames
    starting at 04:31 and 04:32 are counted, the one at 04:30 is not. *)
Definition back_names : list string := ["flash_extent_density"; "average_flash_area"; "group_extent_density"]%string.
Definition back_job : job :=
  mkJob (mkGridder ex_edges ex_edges [0; 60; 120; 180]%Q back_names (fun _ => None) (lit "G16")) 0 3 3 true (mkScenes (304 # 1000, 304 # 1000) (140 # 1000, 84 # 1000) (28 # 1000, 28 # 1000))%Q
    ex_resolutions (lit "GOES-East") (lit "GLM-1") ex_default ex_stamp (fun _ => mkDT 2018 183 5 0 0 0).
Definition back_value (t : nat) : Q := (inject_Z (Z.of_nat (t + 1)) * (1 # 16))%Q.
Definition back_grids : list array3 := repeat (mkArr 3 3 3 (fun x y t => Some (back_value t))) 3.
Lemma back_saves : exists af fs' paths, saves back_job back_grids ex_fs af fs' paths /\ List.length paths = 3.
Proof.
  assert (PR : proper back_job back_grids).
  { split; [exact ex_edges_asc|]. split; [exact ex_edges_asc|]. split; [reflexivity|]. split; [reflexivity|]. split; [repeat constructor|]. split; [reflexivity|]. intros i d H. discriminate H. }
  assert (SV : exists af fs' paths, saves back_job back_grids ex_fs af fs' paths).
  { apply (C65_writing_succeeds back_job back_grids ex_fs (lit ".") PR); cbn; try lia; try reflexivity.
    all: first [intuition discriminate | intros p f rest H; discriminate H | intros p n []]. }
  destruct SV as (af & fs' & paths & SV). exists af, fs', paths. split; [exact SV|]. destruct (saves_spec _ _ _ _ _ _ SV) as (_ & _ & _ & L & _). exact L.
Qed.
Lemma back_dated : dated 1678 2261 back_job.
Proof.
  split; [|intros k; constructor; cbn; try lia]. intros t Ht. cbn in Ht. 
  destruct Ht as [<-|[<-|[<-|[<-|[]]]]]; (split; [constructor; vm_compute; intuition discriminate|vm_compute; discriminate]).
Qed.
Lemma back_kept : forall af fs' paths, saves back_job back_grids ex_fs af fs' paths -> forall k k' p p', k <> k' -> nth_error paths k = Some p -> nth_error paths k' = Some p' -> ~ same_path p p'.
Proof.
  intros af fs' paths SV. apply (C65_frames_keep_their_files back_job back_grids ex_fs af fs' paths (lit ".") SV); [|exact ex_plain|reflexivity|].
  - destruct back_dated as [A B]. split; [intros t Ht; destruct (A t Ht); split; [eapply valid_weaken; [|eauto]; lia|lia]|intros k; eapply valid_weaken; [|apply B]; lia].
  - assert (TE : forall k s e, frame_times back_job k s e -> k = 0 /\ s = ex_stamp 0 \/ k = 1 /\ s = ex_stamp 60 \/ k = 2 /\ s = ex_stamp 120).
    { intros k s e (t0 & t1 & T0 & T1 & -> & ->). destruct k as [|[|[|[|k]]]]; cbn in T0, T1; inversion T0; inversion T1; auto; destruct k; discriminate. }
    intros k k' s e s' e' L F1 F2. apply TE in F1. apply TE in F2. destruct F1 as [[-> ->]|[[-> ->]|[-> ->]]], F2 as [[-> ->]|[[-> ->]|[-> ->]]]; try lia; vm_compute; discriminate.
Qed.
Example C66_ex : exists af fs' paths g first last out, saves back_job back_grids ex_fs af fs' paths /\ open_glm_time_series fs' paths = Ok (g, first, last) /\ aggregate g 5%Z None = Ok out /\
  (qsum (map (fun iv => or0 (iv_at iv "flash_extent_density"%string (2, 1)%nat)) out) == 5 # 16)%Q.
Proof.
  destruct back_saves as (af & fs' & paths & SV & LP).
  assert (F2 : Forall2 (fun p k => nth_error paths k = Some p) paths [0; 1; 2]) by (destruct paths as [|p [|p' [|p'' [|q ps]]]]; try discriminate LP; repeat constructor).
  assert (NE : paths <> []) by (intros ->; discriminate LP).
  assert (ND : NoDup back_names) by (repeat constructor; cbn; intuition discriminate).
  destruct (C66_reading_back back_job back_grids ex_fs af fs' paths paths [0; 1; 2] SV back_dated ND (back_kept _ _ _ SV) F2 NE) as (files & g & first & last & _ & OP & VG & LG & FR & _).
  destruct (C40_succeeds _ g 5%Z ltac:(lia)) as (out & AG); try (rewrite VG; cbn; auto; fail).
  { destruct (FR 0 0 eq_refl) as (s & e & fr & _ & (t0 & t1 & T0 & T1 & -> & ->) & H0 & E0 & _). destruct (FR 1 1 eq_refl) as (s & e & fr' & _ & (u0 & u1 & U0 & U1 & -> & ->) & H1 & E1 & _).
    exists fr, fr'. split; [eapply nth_error_In; eauto|]. split; [eapply nth_error_In; eauto|]. rewrite E0, E1. cbn in T0, U0. inversion T0; inversion U0. vm_compute. reflexivity. }
  exists af, fs', paths, g, first, last, out. split; [exact SV|]. split; [exact OP|]. split; [exact AG|].
  assert (HV : forall k, k < List.length paths -> cell back_grids 0 (j_pad back_job + 1) (j_pad back_job + (j_my back_job - 1 - 2)) k (Some (back_value k)) /\ storable (steps (j_gd back_job) (j_scaled back_job) 0) (back_value k)).
  { intros k Hk. split; [eexists; split; reflexivity|]. exists (Z.of_nat (k + 1)). rewrite LP in Hk. split; [lia|reflexivity]. }
  destruct (C66_counts_survive_partial back_job back_grids ex_fs af fs' paths g first last 5%Z out 0 "flash_extent_density" 2 1 back_value SV back_dated ND (back_kept _ _ _ SV) OP AG eq_refl (or_introl eq_refl) eq_refl ltac:(cbn; lia) ltac:(cbn; lia) HV) as ((k & Hk & EF) & B & T).
  assert (TR : forall a b : Q, (a == b -> b == 5 # 16 -> a == 5 # 16)%Q) by (intros a b E1 E2; rewrite E1; exact E2). refine (TR _ _ T _).
  clear - Hk EF B LP. rewrite LP in *. assert (F0 : first = start_of back_job 0); [|rewrite F0; vm_compute; reflexivity].
    specialize (B 0 ltac:(lia)). destruct k as [|[|[|k]]]; [exact EF|..]; exfalso; [| |lia]; rewrite EF in B; vm_compute in B; apply B; reflexivity.
Qed.
