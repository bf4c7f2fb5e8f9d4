(** C114: the table of flash statistics within moving polygons. *)
From Coq Require Import String Ascii List ZArith QArith Bool Lia Permutation Sorting.Sorted.
From Verif Require Import Base BaseProofs FileName FileNameSpec FileNameProofs Traversal TraversalSpec TraversalProofs Glm GlmSpec GlmProofs GlmProofs2 GlmProofs3 PropGlm
  Pipeline ChunkSpec PropChunks Points PointsSpec PointsProofs PropPoints Output LassoTable LassoTableSpec.
Import ListNotations.
Open Scope string_scope.
Open Scope list_scope.
Open Scope Z_scope.

Local Notation tbl := (table obs).

(** *** Reading the text *)
Lemma cut_none : forall c s, ~ In c s -> cut c s = [s].
Proof.
  induction s as [|a s IH]; intros H; [reflexivity|]. cbn. destruct (Ascii.eqb_spec a c); [subst; exfalso; apply H; left; auto|].
  rewrite IH by (intros K; apply H; right; auto). reflexivity.
Qed.
Lemma cut_app : forall c s r, ~ In c s -> cut c (s ++ c :: r) = s :: cut c r.
Proof.
  induction s as [|a s IH]; intros r H; cbn; [rewrite Ascii.eqb_refl; reflexivity|].
  destruct (Ascii.eqb_spec a c); [subst; exfalso; apply H; left; auto|]. rewrite IH by (intros K; apply H; right; auto). reflexivity.
Qed.
Lemma cut_lines : forall c ls, (forall l, In l ls -> ~ In c l) -> cut c (List.concat (map (fun l => l ++ [c]) ls)) = ls ++ [[]].
Proof.
  induction ls as [|l ls IH]; intros H; [reflexivity|]. cbn [map List.concat]. rewrite <- app_assoc. cbn [app].
  rewrite cut_app by (apply H; left; auto). rewrite IH by (intros; apply H; right; auto). reflexivity.
Qed.
Lemma removelast_one : forall A (l : list A) x, removelast (l ++ [x]) = l.
Proof. intros. apply removelast_last. Qed.
Lemma no_space : forall s, plain_text s -> without_space s = s.
Proof. intros [|a s] H; [reflexivity|]. destruct (H a (or_introl eq_refl)) as (_ & _ & K). cbn. destruct (Ascii.ascii_dec a " "%char); [contradiction|].
  destruct a as [[] [] [] [] [] [] [] []]; try reflexivity. exfalso; apply n; reflexivity. Qed.
Lemma cut_cells : forall vs, vs <> [] -> Forall plain_text vs -> map without_space (cut "," (comma_joined vs)) = vs.
Proof.
  assert (P : forall x, plain_text x -> ~ In ","%char x) by (intros x H K; destruct (H _ K) as (A & _); congruence).
  assert (G : forall vs, vs <> [] -> Forall plain_text vs -> map without_space (cut "," (lit " " ++ comma_joined vs)) = vs /\ map without_space (cut "," (comma_joined vs)) = vs).
  { induction vs as [|x vs IH]; intros N H; [congruence|]. inversion H; subst. specialize (P x H2).
    assert (P' : ~ In ","%char (" "%char :: x)) by (intros [K|K]; [discriminate|auto]).
    destruct vs as [|y vs].
    - cbn [comma_joined lit list_ascii_of_string app]. rewrite !cut_none by auto. cbn [map]. cbn [without_space]. rewrite no_space by auto. auto.
    - destruct (IH ltac:(discriminate) H3) as [I1 I2]. change (comma_joined (x :: y :: vs)) with (x ++ lit ", " ++ comma_joined (y :: vs)).
      change (lit ", " ++ comma_joined (y :: vs)) with (","%char :: lit " " ++ comma_joined (y :: vs)).
      split; [change (lit " " ++ x ++ ","%char :: lit " " ++ comma_joined (y :: vs)) with ((" "%char :: x) ++ ","%char :: lit " " ++ comma_joined (y :: vs))|];
      rewrite cut_app by auto; cbn [map]; rewrite I1; [cbn [without_space]|rewrite no_space by auto]; reflexivity. }
  intros vs N H. apply G; auto.
Qed.
Lemma joined_no_newline : forall vs, Forall plain_text vs -> ~ In "010"%char (comma_joined vs).
Proof.
  induction vs as [|x vs IH]; intros H; [intros []|]. inversion H; subst. assert (P : ~ In "010"%char x) by (intros K; destruct (H2 _ K) as (_ & A & _); congruence).
  destruct vs as [|y vs]; [exact P|]. change (comma_joined (x :: y :: vs)) with (x ++ lit ", " ++ comma_joined (y :: vs)). rewrite !in_app_iff.
  intros [K|[K|K]]; [auto| |exact (IH H3 K)]. cbn in K. destruct K as [K|[K|[]]]; discriminate.
Qed.
Lemma read_back : forall rows, (forall vs, In vs rows -> vs <> [] /\ Forall plain_text vs) ->
  read_table (stat_header ++ List.concat (map (fun vs => comma_joined vs ++ ["010"%char]) rows)) =
  (lit "# start_isoformat" :: map lit (tl stat_keys)) :: rows.
Proof.
  intros rows H. unfold read_table, stat_header. rewrite <- app_assoc. cbn [app]. rewrite cut_app by (cbn; intros K; repeat (destruct K as [K|K]; [discriminate K|]); exact K).
  replace (map (fun vs => comma_joined vs ++ ["010"%char]) rows) with (map (fun l => l ++ ["010"%char]) (map comma_joined rows)) by (rewrite map_map; reflexivity).
  rewrite cut_lines.
  - change (removelast (?h :: ?l ++ [[]])) with (removelast ((h :: l) ++ [[]])). rewrite removelast_one. cbn [map]. f_equal.
    rewrite map_map. rewrite <- (map_id rows) at 2. apply map_ext_in. intros vs Hvs. destruct (H vs Hvs). apply cut_cells; auto.
  - intros l Hl. apply in_map_iff in Hl. destruct Hl as (vs & <- & Hvs). apply joined_no_newline. apply H; auto.
Qed.
Lemma iso_plain : forall d, plain_text (isoformat d).
Proof.
  intros d. assert (D : forall k n, plain_text (pad k n)).
  { intros k n c Hc. pose proof (pad_digits k n) as P. unfold digits in P. rewrite Forall_forall in P. destruct (P c Hc) as (d' & B & ->).
    assert (K : d' = 0 \/ d' = 1 \/ d' = 2 \/ d' = 3 \/ d' = 4 \/ d' = 5 \/ d' = 6 \/ d' = 7 \/ d' = 8 \/ d' = 9) by lia.
    repeat (destruct K as [->|K]; [split; [discriminate|split; discriminate]|]). subst d'. split; [discriminate|split; discriminate]. }
  assert (A : forall a b, plain_text a -> plain_text b -> plain_text (a ++ b)) by (intros a b Ha Hb c Hc; apply in_app_iff in Hc; destruct Hc; auto).
  assert (L : forall s, s = lit "-" \/ s = lit "T" \/ s = lit ":" \/ s = lit "." -> plain_text s).
  { intros s [-> | [-> | [-> | ->]]] c [<-|[]]; (split; [discriminate|split; discriminate]). }
  unfold isoformat. repeat (apply A; [first [apply D|apply L; tauto]|]).
  destruct (dt_us d =? 0); [intros c []|]. apply A; [apply L; tauto|apply D].
Qed.
Lemma field_found : forall r k v, has_field r k v -> stat_field k r = Ok v.
Proof.
  intros r k v (pre & post & -> & N). induction pre as [|[k' v'] pre IH]; cbn; [rewrite String.eqb_refl; reflexivity|].
  destruct (String.eqb_spec k' k); [subst; exfalso; apply N; left; reflexivity|]. apply IH. intros K. apply N. right. auto.
Qed.
Lemma field_app : forall r1 r2 k, ~ In k (map fst r1) -> stat_field k (r1 ++ r2) = stat_field k r2.
Proof.
  induction r1 as [|[k' v'] r1 IH]; intros r2 k N; [reflexivity|]. cbn. destruct (String.eqb_spec k' k); [subst; exfalso; apply N; left; reflexivity|].
  apply IH. intros K. apply N. right. auto.
Qed.
Lemma map_res_forall2 : forall A B (f : A -> res B) l m, Forall2 (fun a b => f a = Ok b) l m -> map_res f l = Ok m.
Proof. induction 1 as [|a b l m H _ IH]; [reflexivity|]. cbn. rewrite H. cbn. rewrite IH. reflexivity. Qed.
Lemma line_ok : forall r e vs, ~ In "start_isoformat" (map fst r) -> ~ In "end_isoformat" (map fst r) ->
  Forall2 (has_field r) statistics_names vs ->
  stat_line (with_times r e) = Ok (comma_joined (isoformat (fst e) :: isoformat (snd e) :: vs) ++ ["010"%char]).
Proof.
  intros r e vs N1 N2 H. unfold stat_line. rewrite (map_res_forall2 _ _ _ _ (isoformat (fst e) :: isoformat (snd e) :: vs)); [reflexivity|].
  unfold stat_keys. fold statistics_names. constructor; [unfold with_times; rewrite field_app by auto; reflexivity|].
  constructor; [unfold with_times; rewrite field_app by auto; reflexivity|].
  induction H as [|k v l m (pre & post & E & N) _ IH]; [constructor|]. constructor; [|exact IH].
  apply field_found. exists pre, (post ++ [("start_isoformat", isoformat (fst e)); ("end_isoformat", isoformat (snd e))]).
  split; [unfold with_times; rewrite E, <- app_assoc; reflexivity|exact N].
Qed.

(** *** The flashes of a window *)
Lemma window_time : forall base e t, in_window (edge_seconds base (fst e)) (edge_seconds base (snd e)) (since (Some base) t) = true <-> ns (fst e) <= t < ns (snd e).
Proof.
  intros base e t. unfold in_window, since, edge_seconds.
  assert (L : forall a b, Qle_bool (inject_Z a / inject_Z 1000000000) (inject_Z b / inject_Z 1000000000) = (a <=? b)).
  { intros a b. apply eq_true_iff_eq. rewrite Qle_bool_iff, Z.leb_le. unfold Qdiv. rewrite Qmult_le_r by reflexivity. rewrite <- Zle_Qle. reflexivity. }
  rewrite !L. unfold nanos, ns. rewrite andb_true_iff, negb_true_iff, Z.leb_le, Z.leb_gt. lia.
Qed.

Section Window.
Variables (base : Z) (lasso : fval -> fval -> fval -> bool) (o : stat_options) (e : datetime * datetime).
Definition keep (p : parent) : bool :=
  (in_window (edge_seconds base (fst e)) (edge_seconds base (snd e)) (p_start p) && lasso (p_init_lon p) (p_init_lat p) (p_start p) &&
   (within (so_area o) (p_area p) && within (metres (so_alt o)) (Some (p_ctr_alt p)) && within (so_energy o) (p_energy p)))%bool.
Lemma keep_but_n : forall p q, but_n p = but_n q -> keep p = keep q.
Proof. intros p q H. unfold but_n in H. injection H as H1 H2 H3 H4 H5 H6 H7 H8 H9 H10 H11 H12. unfold keep. congruence. Qed.
Lemma filter_and : forall A (p q : A -> bool) l, filter q (filter p l) = filter (fun a => p a && q a)%bool l.
Proof. induction l as [|a l IH]; [reflexivity|]. cbn. destruct (p a); cbn; [destruct (q a); rewrite IH; reflexivity|exact IH]. Qed.
Lemma filter_concat : forall A (p : A -> bool) l, filter p (List.concat l) = List.concat (map (filter p) l).
Proof. induction l as [|a l IH]; [reflexivity|]. cbn. rewrite filter_app, IH. reflexivity. Qed.
Lemma window_flashes : forall files,
  snd (filtered (so_area o) (metres (so_alt o)) (so_energy o)
         (let ws := map (chopped lasso (edge_seconds base (fst e)) (edge_seconds base (snd e))) files in
          (List.concat (map fst ws), List.concat (map snd ws)))) = List.concat (map (fun w => filter keep (snd w)) files).
Proof.
  intros files. unfold filtered. cbn [snd]. rewrite filter_concat, !map_map. f_equal. apply map_ext. intros w. unfold chopped, lasso_window. cbn [snd].
  rewrite !filter_and. apply filter_ext. intros p. unfold keep. rewrite andb_assoc. reflexivity.
Qed.

(** One flash of a file. *)
Definition made (f : glmfile) (x : row obs) (p : parent) : Prop :=
  but_n p = but_n (mkParent (o_area (rdat x)) (o_energy (rdat x)) 0 (o_lat (rdat x)) (o_lon (rdat x)) 0
       (since (Some base) (t_first (g_clock f) (rid x))) (fminus (since (Some base) (t_last (g_clock f) (rid x))) (since (Some base) (t_first (g_clock f) (rid x))))
       (o_lat (rdat x)) (o_lon (rdat x)) 0 (i4 (rid x)) 0).
Lemma keep_made : forall f x p, made f x p -> (keep p = true <->
  let t := t_first (g_clock f) (rid x) in
  ns (fst e) <= t < ns (snd e) /\ lasso (o_lon (rdat x)) (o_lat (rdat x)) (seconds_after base t) = true /\
  ranged (so_area o) (o_area (rdat x)) /\ ranged (so_alt o) (Some 0%Q) /\ ranged (so_energy o) (o_energy (rdat x))).
Proof.
  intros f x p M. rewrite (keep_but_n _ _ M). unfold keep. cbn [p_start p_init_lon p_init_lat p_area p_ctr_alt p_energy].
  rewrite !andb_true_iff, window_time, !within_between.
  assert (A : between (metres (so_alt o)) (Some 0%Q) <-> ranged (so_alt o) (Some 0%Q)).
  { split; intros (y & [= <-] & H1 & H2); exists 0%Q; (split; [reflexivity|]); cbn in *; split.
    - apply (Qmult_lt_0_le_reg_r _ _ 1000); [reflexivity|]. rewrite Qmult_0_l. auto.
    - apply (Qmult_lt_0_le_reg_r _ _ 1000); [reflexivity|]. rewrite Qmult_0_l. auto.
    - rewrite <- (Qmult_0_l 1000). apply Qmult_le_compat_r; [auto|discriminate].
    - rewrite <- (Qmult_0_l 1000) at 1. apply Qmult_le_compat_r; [auto|discriminate]. }
  cbv zeta. rewrite A. unfold ranged, between, seconds_after, since. tauto.
Qed.
End Window.

Lemma made_point : forall base f x p, made base f x p -> parent_point (t_first (g_clock f)) (t_last (g_clock f)) (Some base) (fun f => o_area (rdat f)) x p.
Proof.
  intros base f x p M. unfold made, but_n in M. cbn in M. injection M as H1 H2 H3 H4 H5 H6 H7 H8 H9 H10 H11 H12.
  unfold parent_point. rewrite H1, H2, H3, H4, H5, H6, H7, H8, H9, H10, H11, H12.
  repeat (split; [first [reflexivity|apply wrap_low; reflexivity]|]). split; [apply (since_from (Some base))|apply duration_from].
Qed.
Lemma forall2_map_eq : forall A B C (f : A -> C) (g : B -> C) l m, map g m = map f l -> Forall2 (fun x p => g p = f x) l m.
Proof. induction l as [|a l IH]; intros [|b m] H; cbn in H; try discriminate; [constructor|]. injection H as H1 H2. constructor; auto. Qed.
Lemma forall2_weak : forall A B (R S : A -> B -> Prop) l m, (forall x p, R x p -> S x p) -> Forall2 R l m -> Forall2 S l m.
Proof. intros A B R S l m K. induction 1; constructor; auto. Qed.
Lemma nodup_app : forall A (l m : list A), NoDup l -> NoDup m -> (forall x, In x l -> ~ In x m) -> NoDup (l ++ m).
Proof.
  induction l as [|a l IH]; intros m H1 H2 H; [exact H2|]. inversion H1; subst. cbn. constructor.
  - rewrite in_app_iff. intros [K|K]; [auto|]. apply (H a); [left; auto|auto].
  - apply IH; auto. intros x Hx. apply H. right. auto.
Qed.
Lemma forall2_filter : forall A B (R : A -> B -> Prop) (k1 : A -> bool) (k2 : B -> bool) l m, (forall x p, R x p -> k1 x = k2 p) ->
  Forall2 R l m -> Forall2 R (filter k1 l) (filter k2 m).
Proof. intros A B R k1 k2 l m K. induction 1 as [|x p l m H _ IH]; [constructor|]. cbn. rewrite (K _ _ H). destruct (k2 p); [constructor; auto|auto]. Qed.

(** A flash in the rectangle of the polygons with enough events and groups. *)
Definition near (lonr latr : Q * Q) (min_events min_groups : Z) (G E : tbl) (x : row obs) : Prop :=
  strictly lonr (o_lon (rdat x)) /\ strictly latr (o_lat (rdat x)) /\
  min_events <= Z.of_nat (List.length (flash_events G E (rid x))) /\ min_groups <= Z.of_nat (List.length (with_parent G (rid x))).
Definition box_query lonr latr o := collection_query (Some lonr) (Some latr) (from_two (so_events o)) (from_two (so_groups o)).
Lemma wanted_near : forall lonr latr o G E x, in_view G E x ->
  (forall q, box_query lonr latr o = Some q -> wanted q G E x) <-> near lonr latr (so_events o) (so_groups o) G E x.
Proof.
  intros lonr latr o G E x V.
  assert (NE : 1 <= Z.of_nat (List.length (flash_events G E (rid x))) /\ 1 <= Z.of_nat (List.length (with_parent G (rid x)))).
  { destruct V as (e & He & _). split.
    - destruct (flash_events G E (rid x)); [destruct He|cbn; lia].
    - unfold flash_events in He. apply filter_In in He. destruct He as [_ He]. apply existsb_exists in He. destruct He as (g & Hg & K). apply andb_true_iff in K.
      assert (In g (with_parent G (rid x))) by (unfold with_parent; apply filter_In; split; [auto|apply K]). destruct (with_parent G (rid x)); [destruct H|cbn; lia]. }
  unfold near, from_two, box_query, collection_query. split.
  - intros H. specialize (H _ eq_refl). destruct H as (_ & _ & H3 & H4 & H5 & H6 & _). cbn in H3, H4, H5, H6. split; [apply H3; reflexivity|]. split; [apply H4; reflexivity|].
    unfold from_two in H5, H6. destruct (Z.ltb_spec (so_events o) 2), (Z.ltb_spec (so_groups o) 2); split; try lia; try (apply H5; reflexivity); apply H6; reflexivity.
  - intros (H1 & H2 & H3 & H4) q [= <-]. unfold wanted. cbn. split; [discriminate|]. split; [discriminate|]. split; [intros r [= <-]; auto|]. split; [intros r [= <-]; auto|].
    unfold from_two. split; [destruct (so_events o <? 2); intros m [= <-]; auto|]. split; [destruct (so_groups o <? 2); intros m [= <-]; auto|].
    destruct V as (e & He & V1 & V2). exists e. split; [auto|]. split; [auto|]. split; [auto|]. split; discriminate.
Qed.
Lemma box_checked : forall lonr latr o, checked (box_query lonr latr o).
Proof. intros lonr latr o q [= <-]. reflexivity. Qed.
Lemma box_selection : forall so, (forall l, Permutation (so l) l) -> forall lonr latr o F G E Fs Gs Es, opened F G E -> (forall x, In x F -> in_view G E x) ->
  selection so [F; G; E] (box_query lonr latr o) [Fs; Gs; Es] ->
  forall x, In x Fs <-> In x F /\ near lonr latr (so_events o) (so_groups o) G E x.
Proof.
  intros so HP lonr latr o F G E Fs Gs Es (D & nF & nG & nE) V S x.
  assert (EQ : exists q, box_query lonr latr o = Some q) by (eexists; reflexivity). destruct EQ as (q & EQ). pose proof EQ as EQ0. rewrite EQ in S. cbn [selection] in S.
  destruct (C12_subset_exact so HP F G E q D nF nG nE (box_checked lonr latr o q EQ0)) as (F2 & G2 & E2 & S2 & H & _).
  assert (X : [F2; G2; E2] = [Fs; Gs; Es]) by congruence. injection X as -> -> ->. rewrite H.
  split; intros [Hx W]; (split; [auto|]).
  - apply (wanted_near lonr latr o G E x (V x Hx)). intros q' Eq'. congruence.
  - apply (wanted_near lonr latr o G E x (V x Hx)) with (q := q) in W; auto.
Qed.

Section Files.
Variable set_order : list Z -> list Z.
Variable junk : nat -> child.
Hypothesis HP : forall l, Permutation (set_order l) l.
Variables (base : Z) (lonr latr : Q * Q) (lasso : fval -> fval -> fval -> bool) (o : stat_options).
Hypothesis BOX : forall lon lat t, lasso lon lat t = true -> strictly lonr lon /\ strictly latr lat.
Lemma file_rows : forall f F G E w e, g_data f = [F; G; E] -> opened F G E -> (forall x, In x F -> in_view G E x) ->
  data_of_file set_order junk (Some base) (box_query lonr latr o) f = Ok w ->
  exists rows, NoDup rows /\ (forall x, In x rows <-> counts base lasso (so_area o) (so_alt o) (so_energy o) (so_events o) (so_groups o) e f x) /\
    Forall2 (parent_point (t_first (g_clock f)) (t_last (g_clock f)) (Some base) (fun f => o_area (rdat f))) rows (filter (keep base lasso o e) (snd w)).
Proof.
  intros f F G E w e EF OP V H.
  destruct (flashes_of_file set_order junk (Some base) _ f F G E w HP EF OP (box_checked lonr latr o) H) as (Fs & Gs & Es & S & D & EW).
  pose proof (box_selection set_order HP lonr latr o F G E Fs Gs Es OP V S) as IN.
  unfold fill_parents in EW. rewrite map_map in EW. apply forall2_map_eq in EW.
  assert (MD : Forall2 (made base f) Fs (snd w)) by (eapply forall2_weak; [|exact EW]; intros x p K; exact K).
  set (kx := fun x => keep base lasso o e (mkParent (o_area (rdat x)) (o_energy (rdat x)) 0 (o_lat (rdat x)) (o_lon (rdat x)) 0
       (since (Some base) (t_first (g_clock f) (rid x))) (fminus (since (Some base) (t_last (g_clock f) (rid x))) (since (Some base) (t_first (g_clock f) (rid x))))
       (o_lat (rdat x)) (o_lon (rdat x)) 0 (i4 (rid x)) 0)).
  exists (filter kx Fs). split; [|split].
  - apply NoDup_filter. destruct D as ((U & _) & _). apply unique3 in U. destruct U as (U & _). eapply NoDup_map_inv. exact U.
  - intros x. rewrite filter_In, IN. unfold kx. rewrite (keep_made base lasso o e f x) by reflexivity. cbv zeta. unfold counts, near. split.
    + intros [[Hx (N1 & N2 & N3 & N4)] (K1 & K2 & K3 & K4 & K5)]. exists F, G, E. cbv zeta. tauto.
    + intros (F' & G' & E' & EF' & Hx & K). rewrite EF in EF'. injection EF' as <- <- <-. cbv zeta in K. destruct K as (K1 & K2 & K3 & K4 & K5 & K6 & K7).
      destruct (BOX _ _ _ K2). tauto.
  - apply (forall2_weak _ _ (made base f)); [intros x p; apply made_point|]. apply forall2_filter; [|exact MD]. intros x p M. symmetry. apply (keep_but_n base lasso o e). exact M.
Qed.

Variable disk : string -> res glmfile.
Definition good_file (n : string) (f : glmfile) (F G E : tbl) : Prop :=
  disk n = Ok f /\ g_data f = [F; G; E] /\ opened F G E /\ (forall x, In x F -> in_view G E x).
Lemma all_rows : forall w e names, NoDup names ->
  (forall n, In n names -> exists f F G E, good_file n f F G E /\ data_of_file set_order junk (Some base) (box_query lonr latr o) f = Ok (w n)) ->
  exists rows, NoDup rows /\
    (forall n x, In (n, x) rows <-> In n names /\ exists f, disk n = Ok f /\ counts base lasso (so_area o) (so_alt o) (so_energy o) (so_events o) (so_groups o) e f x) /\
    Forall2 (fun nx p => exists f, disk (fst nx) = Ok f /\ parent_point (t_first (g_clock f)) (t_last (g_clock f)) (Some base) (fun f => o_area (rdat f)) (snd nx) p)
      rows (List.concat (map (fun n => filter (keep base lasso o e) (snd (w n))) names)).
Proof.
  intros w e names. induction names as [|n names IH]; intros ND H.
  - exists []. split; [constructor|]. split; [|constructor]. intros n x. split; [intros []|intros [[] _]].
  - inversion ND; subst. destruct (IH H3 ltac:(intros; apply H; right; auto)) as (rows & R1 & R2 & R3).
    destruct (H n (or_introl eq_refl)) as (f & F & G & E & (D & EF & OP & V) & Ew).
    destruct (file_rows f F G E (w n) e EF OP V Ew) as (r & N1 & N2 & N3).
    exists (map (pair n) r ++ rows). split; [|split].
    + apply nodup_app; [apply FinFun.Injective_map_NoDup; [intros a b [= ->]; reflexivity|exact N1]|exact R1|].
      intros [m x] Hm Hr. apply in_map_iff in Hm. destruct Hm as (y & [= <- <-] & _). apply R2 in Hr. destruct Hr. contradiction.
    + intros m x. rewrite in_app_iff, in_map_iff, R2. split.
      * intros [(y & [= <- <-] & Hy)|[Hm C]]; [split; [left; reflexivity|exists f; split; [auto|apply N2; auto]]|split; [right; auto|auto]].
      * intros [[<-|Hm] (f' & D' & C)]; [left; exists x; split; [reflexivity|]; apply N2; replace f with f' by congruence; auto|right; split; [auto|exists f'; auto]].
    + cbn [map List.concat]. apply Forall2_app; [|exact R3]. clear - N3 D. induction N3 as [|x p r l HR _ IH]; [constructor|]. cbn [map]. constructor; [exists f; auto|auto].
Qed.
End Files.

(** A run over some files: which are good, at different seconds, with the polygons in a rectangle, and
    statistics that have the fields of the table. *)
Record run_ok (disk : string -> res glmfile) (size_stats : list parent -> stat_record) (names : list string) (ts : list Z)
  (lonr latr : Q * Q) (lasso : fval -> fval -> fval -> bool) : Prop := mkRun {
  r_times : Forall2 (second_of disk) names ts;
  r_distinct : NoDup ts;
  r_files : forall n, In n names -> exists f F G E, good_file disk n f F G E;
  r_box : forall lon lat t, lasso lon lat t = true -> strictly lonr lon /\ strictly latr lat;
  r_stats : forall ps k, In k statistics_names -> exists v, has_field (size_stats ps) k v /\ plain_text v;
  r_no_times : forall ps, ~ In "start_isoformat" (map fst (size_stats ps)) /\ ~ In "end_isoformat" (map fst (size_stats ps)) }.
(** Some flash of the file is in the rectangle, with enough events and groups. *)
Definition has_near disk lonr latr o n : Prop :=
  exists f F G E x, good_file disk n f F G E /\ In x F /\ near lonr latr (so_events o) (so_groups o) G E x.

Lemma names_distinct : forall disk names ts, Forall2 (second_of disk) names ts -> NoDup ts -> NoDup names.
Proof.
  intros disk names ts H. induction H as [|n t names ts (f & D & B) H IH]; intros N; [constructor|]. inversion N; subst. constructor; [|auto].
  intros K. assert (exists t', In t' ts /\ second_of disk n t') as (t' & Ht & (f' & D' & B')).
  { clear - H K. induction H as [|m s names ts S _ IH]; [destruct K|]. destruct K as [->|K]; [exists s; split; [left; auto|auto]|]. destruct (IH K) as (t' & A & B). exists t'. split; [right; auto|auto]. }
  assert (f' = f) by congruence. subst f'. assert (t' = t) by lia. subst. contradiction.
Qed.
Lemma combine_map : forall A B (g : A -> B) l, combine (map g l) l = map (fun a => (g a, a)) l.
Proof. induction l as [|a l IH]; [reflexivity|]. cbn. rewrite IH. reflexivity. Qed.
Lemma stats_fields : forall r ks, (forall k, In k ks -> exists v, has_field r k v /\ plain_text v) -> exists vs, Forall2 (has_field r) ks vs /\ Forall plain_text vs.
Proof.
  induction ks as [|k ks IH]; intros H; [exists []; split; constructor|]. destruct (H k (or_introl eq_refl)) as (v & Hv & P).
  destruct (IH ltac:(intros; apply H; right; auto)) as (vs & A & B). exists (v :: vs). split; constructor; auto.
Qed.
Lemma file_cases : forall so junk, (forall l, Permutation (so l) l) -> forall base lonr latr o disk n f F G E, good_file disk n f F G E ->
  (exists w, data_of_file so junk (Some base) (box_query lonr latr o) f = Ok w /\ exists x, In x F /\ near lonr latr (so_events o) (so_groups o) G E x) \/
  (data_of_file so junk (Some base) (box_query lonr latr o) f = Err ValueError /\ ~ exists x, In x F /\ near lonr latr (so_events o) (so_groups o) G E x).
Proof.
  intros so junk HP base lonr latr o disk n f F G E (D & EF & OP & V).
  destruct (C69_one_file so junk HP (Some base) (box_query lonr latr o) f ltac:(exists F, G, E; auto) (box_checked lonr latr o)) as [(w & Ew & Fs & Gs & Es & S & N & _)|(Gs & Es & S & Ew)];
    rewrite EF in S; pose proof (box_selection so HP lonr latr o F G E _ _ _ OP V S) as IN.
  - left. exists w. split; [auto|]. destruct Fs as [|x Fs]; [congruence|]. exists x. apply IN. left. reflexivity.
  - right. split; [auto|]. intros (x & Hx). apply IN in Hx. destruct Hx.
Qed.
Lemma series_cases : forall so junk, (forall l, Permutation (so l) l) -> forall disk pb size_stats names ts t_start lonr latr lasso o,
  run_ok disk size_stats names ts lonr latr lasso ->
  ((forall n, In n names -> has_near disk lonr latr o n) ->
   exists w order, Permutation order names /\ subset_series so junk disk pb names t_start None (box_query lonr latr o) = Ok (map w order) /\
     forall n, In n order -> exists f F G E, good_file disk n f F G E /\ data_of_file so junk (Some (pb t_start None)) (box_query lonr latr o) f = Ok (w n)) /\
  ((exists n, In n names /\ ~ has_near disk lonr latr o n) -> subset_series so junk disk pb names t_start None (box_query lonr latr o) = Err ValueError).
Proof.
  intros so junk HP disk pb size_stats names ts t_start lonr latr lasso o R. set (base := pb t_start None).
  destruct (C69_collection_partial so junk disk names ts (r_times _ _ _ _ _ _ _ R) (r_distinct _ _ _ _ _ _ _ R)) as (c & order & OC & PM & _ & ALL).
  destruct (ALL (Some base) (box_query lonr latr o)) as (_ & GOOD & BAD). unfold subset_series. rewrite OC. cbn [bind]. fold base. split.
  - intros HN.
    set (w := fun n => match disk n with Ok f => match data_of_file so junk (Some base) (box_query lonr latr o) f with Ok w => w | Err _ => ([], []) end | Err _ => ([], []) end).
    assert (W : forall n, In n names -> exists f F G E, good_file disk n f F G E /\ data_of_file so junk (Some base) (box_query lonr latr o) f = Ok (w n)).
    { intros n Hn. destruct (HN n Hn) as (f & F & G & E & x & GF & Hx & NR). exists f, F, G, E. split; [auto|].
      destruct (file_cases so junk HP base lonr latr o disk n f F G E GF) as [(w' & Ew & _)|[_ K]]; [|exfalso; apply K; eauto].
      unfold w. destruct GF as (D & _). rewrite D, Ew. reflexivity. }
    assert (PN : Permutation (map fst order) names).
    { destruct (combine_snd _ _ _ _ _ (r_times _ _ _ _ _ _ _ R)) as [_ CN]. rewrite <- CN. apply Permutation_map. exact PM. }
    exists w, (map fst order). split; [exact PN|]. split.
    + apply GOOD. intros n Hn. destruct (W n Hn) as (f & F & G & E & (D & _) & Ew). exists f. auto.
    + intros n Hn. apply W. eapply Permutation_in; [exact PN|exact Hn].
  - intros (n & Hn & NO). apply BAD.
    + intros m Hm. destruct (r_files _ _ _ _ _ _ _ R m Hm) as (f & F & G & E & GF). exists f. split; [apply GF|].
      destruct (file_cases so junk HP base lonr latr o disk m f F G E GF) as [(w & Ew & _)|[Ew _]]; eauto.
    + destruct (r_files _ _ _ _ _ _ _ R n Hn) as (f & F & G & E & GF). exists n, f. split; [auto|]. split; [apply GF|].
      destruct (file_cases so junk HP base lonr latr o disk n f F G E GF) as [(w & Ew & x & Hx & NR)|[Ew _]]; [|auto].
      exfalso. apply NO. exists f, F, G, E, x. auto.
Qed.

(** When every file has a flash in the rectangle around the polygons, the table has the names of its
    columns and then one line for each window of time, in order: start, end, and the statistics
    of exactly the flashes that count for the window, each taken once. *)
Theorem C114_table_partial : forall set_order junk, (forall l, Permutation (set_order l) l) ->
  forall disk parent_base size_stats names ts t_start edges lonr latr lasso o,
  run_ok disk size_stats names ts lonr latr lasso -> (forall n, In n names -> has_near disk lonr latr o n) -> (2 <= List.length edges)%nat ->
  let base := parent_base (nanos t_start) None in
  exists text lines, flash_table set_order junk disk parent_base size_stats names t_start edges lonr latr lasso o = Ok text /\
    read_table text = map lit ["# start_isoformat"; "end_isoformat"; "number"; "mean"; "variance"; "skewness"; "kurtosis"; "energy";
                               "energy_per_flash"; "total_energy"; "specific_energy"] :: lines /\
    Forall2 (fun e line => exists flashes ps vs, NoDup flashes /\
        (forall n x, In (n, x) flashes <-> In n names /\ exists f, disk n = Ok f /\
           counts base lasso (so_area o) (so_alt o) (so_energy o) (so_events o) (so_groups o) e f x) /\
        Forall2 (fun nx p => exists f, disk (fst nx) = Ok f /\
           parent_point (t_first (g_clock f)) (t_last (g_clock f)) (Some base) (fun f => o_area (rdat f)) (snd nx) p) flashes ps /\
        Forall2 (has_field (size_stats ps)) ["number"; "mean"; "variance"; "skewness"; "kurtosis"; "energy"; "energy_per_flash"; "total_energy"; "specific_energy"] vs /\
        line = isoformat (fst e) :: isoformat (snd e) :: vs)
      (combine edges (tl edges)) lines.
Proof.
  intros so junk HP disk pb stats names ts t_start edges lonr latr lasso o R HN LE base.
  destruct (series_cases so junk HP disk pb stats names ts (nanos t_start) lonr latr lasso o R) as [OKC _]. destruct (OKC HN) as (w & order & PN & SS & W). clear OKC. fold base in W.
  assert (ND : NoDup order) by (eapply Permutation_NoDup; [apply Permutation_sym; exact PN|apply (names_distinct disk names ts); apply R]).
  unfold flash_table. fold (box_query lonr latr o). rewrite SS. cbn [bind]. fold base.
  set (PS := fun e => List.concat (map (fun n => filter (keep base lasso o e) (snd (w n))) order)).
  assert (ST : forall wins, map (fun x => with_times (stats (snd (fst x))) (snd x)) (combine (map (filtered (so_area o) (metres (so_alt o)) (so_energy o))
      (map (fun e => let ws := map (chopped lasso (edge_seconds base (fst e)) (edge_seconds base (snd e))) (map w order) in (List.concat (map fst ws), List.concat (map snd ws))) wins)) wins)
      = map (fun e => with_times (stats (PS e)) e) wins).
  { intros wins. rewrite map_map. rewrite combine_map, map_map. apply map_ext. intros e. cbn [fst snd]. f_equal. f_equal.
    pose proof (window_flashes base lasso o e (map w order)) as WF. cbv zeta in WF. rewrite WF. rewrite map_map. reflexivity. }
  specialize (ST (windows_of edges)). unfold event_flash_series. cbv beta zeta in ST |- *. rewrite ST. clear ST.
  assert (LN : exists vss, Forall2 (fun e vs => Forall2 (has_field (stats (PS e))) statistics_names vs /\ Forall plain_text vs) (windows_of edges) vss).
  { induction (windows_of edges) as [|e wins IH]; [exists []; constructor|]. destruct IH as (vss & IH).
    destruct (stats_fields (stats (PS e)) statistics_names (r_stats _ _ _ _ _ _ _ R (PS e))) as (vs & A). exists (vs :: vss). constructor; auto. }
  destruct LN as (vss & LN).
  exists (stat_header ++ List.concat (map (fun vs => comma_joined vs ++ ["010"%char]) (map (fun x => isoformat (fst (fst x)) :: isoformat (snd (fst x)) :: snd x) (combine (windows_of edges) vss)))),
    (map (fun x => isoformat (fst (fst x)) :: isoformat (snd (fst x)) :: snd x) (combine (windows_of edges) vss)).
  split; [|split].
  - assert (NE : windows_of edges <> []) by (destruct edges as [|a [|b edges]]; cbn in LE |- *; [lia|lia|discriminate]).
    set (RHS := stat_header ++ _). assert (K : stat_text (map (fun e => with_times (stats (PS e)) e) (windows_of edges)) = Ok RHS);
      [subst RHS|clearbody RHS; destruct (windows_of edges); [congruence|exact K]].
    unfold stat_text. rewrite (map_res_forall2 _ _ _ _ (map (fun vs => comma_joined vs ++ ["010"%char]) (map (fun x => isoformat (fst (fst x)) :: isoformat (snd (fst x)) :: snd x) (combine (windows_of edges) vss)))); [reflexivity|].
    clear - LN R. induction LN as [|e vs wins vss [A B] _ IH]; [constructor|]. cbn [combine map fst snd]. constructor; [|exact IH].
    destruct (r_no_times _ _ _ _ _ _ _ R (PS e)). apply line_ok; auto.
  - rewrite read_back; [reflexivity|]. intros vs Hvs. apply in_map_iff in Hvs. destruct Hvs as ([e v] & <- & Hin). cbn [fst snd]. split; [discriminate|].
    constructor; [apply iso_plain|]. constructor; [apply iso_plain|]. clear - LN Hin. induction LN as [|e' vs wins vss [A B] _ IH]; [destruct Hin|]. destruct Hin as [[= <- <-]|Hin]; auto.
  - fold (windows_of edges). clear LE.
    assert (ALL : forall e, exists rows, NoDup rows /\
       (forall n x, In (n, x) rows <-> In n names /\ exists f, disk n = Ok f /\ counts base lasso (so_area o) (so_alt o) (so_energy o) (so_events o) (so_groups o) e f x) /\
       Forall2 (fun nx p => exists f, disk (fst nx) = Ok f /\ parent_point (t_first (g_clock f)) (t_last (g_clock f)) (Some base) (fun f => o_area (rdat f)) (snd nx) p) rows (PS e)).
    { intros e. destruct (all_rows so junk HP base lonr latr lasso o (r_box _ _ _ _ _ _ _ R) disk w e order ND W) as (rows & A & B & C). exists rows. split; [auto|]. split; [|exact C].
      intros n x. rewrite B. split; intros [Hn K]; (split; [|exact K]); [eapply Permutation_in; [exact PN|exact Hn]|eapply Permutation_in; [apply Permutation_sym; exact PN|exact Hn]]. }
    clear - LN ALL. induction LN as [|e vs wins vss [A B] _ IH]; [constructor|]. cbn [combine map fst snd]. constructor; [|exact IH].
    destruct (ALL e) as (rows & R1 & R2 & R3). exists rows, (PS e), vs. auto.
Qed.
Print Assumptions C114_table_partial.

(** When one of the files has no flash in that rectangle there is no table at all. *)
Theorem C114_table_refuted : forall set_order junk, (forall l, Permutation (set_order l) l) ->
  forall disk parent_base size_stats names ts t_start edges lonr latr lasso o,
  run_ok disk size_stats names ts lonr latr lasso -> (exists n, In n names /\ ~ has_near disk lonr latr o n) ->
  flash_table set_order junk disk parent_base size_stats names t_start edges lonr latr lasso o = Err ValueError.
Proof.
  intros so junk HP disk pb stats names ts t_start edges lonr latr lasso o R NO.
  destruct (series_cases so junk HP disk pb stats names ts (nanos t_start) lonr latr lasso o R) as [_ BAD].
  unfold flash_table. fold (box_query lonr latr o). rewrite (BAD NO). reflexivity.
Qed.
Print Assumptions C114_table_refuted.

Lemma last_step : forall A (l : list A) a d, last (a :: l) d = last l a.
Proof. induction l as [|b l IH]; intros a d; [reflexivity|]. change (last (a :: b :: l) d) with (last (b :: l) d). rewrite !IH. reflexivity. Qed.
(** Between windows nothing is lost and nothing counted twice: a flash that counts for the time from
    the first to the last edge counts for exactly one of the windows. *)
Theorem C114_one_window : forall base lasso area alt energy min_events min_groups f x first rest,
  StronglySorted (fun a b => instant a < instant b) (first :: rest) ->
  counts base lasso area alt energy min_events min_groups (first, last rest first) f x ->
  exists e, In e (combine (first :: rest) rest) /\ counts base lasso area alt energy min_events min_groups e f x /\
    forall e', In e' (combine (first :: rest) rest) -> counts base lasso area alt energy min_events min_groups e' f x -> e' = e.
Proof.
  intros base lasso area alt energy me mg f x first rest S (F & G & E & EF & Hx & T & K). set (t := t_first (g_clock f) (rid x)) in *. cbn [fst snd] in T.
  assert (C : forall e, ns (fst e) <= t < ns (snd e) <-> counts base lasso area alt energy me mg e f x).
  { intros e. split; [intros B; exists F, G, E; split; [auto|split; [auto|split; [exact B|exact K]]]|]. intros (F' & G' & E' & _ & _ & B & _). exact B. }
  enough (exists e, In e (combine (first :: rest) rest) /\ ns (fst e) <= t < ns (snd e) /\ forall e', In e' (combine (first :: rest) rest) -> ns (fst e') <= t < ns (snd e') -> e' = e) as (e & H1 & H2 & H3).
  { exists e. split; [auto|]. split; [apply C; auto|]. intros e' He' H'. apply H3; [auto|]. apply C; auto. }
  clear - S T. clearbody t. revert first S T. induction rest as [|b rest IH]; intros first S T; [cbn in T; lia|].
  inversion S as [|? ? S' A]; subst. assert (LB : forall e, In e (combine (b :: rest) rest) -> instant b <= instant (fst e)).
  { intros e He. destruct e as [u v]. apply in_combine_l in He. inversion S' as [|? ? _ A']; subst. destruct He as [->|He]; [cbn; lia|]. rewrite Forall_forall in A'. specialize (A' u He). cbn. lia. }
  destruct (Z_lt_ge_dec t (ns b)) as [L|L].
  - exists (first, b). split; [left; reflexivity|]. split; [cbn; lia|]. intros e' [<-|He'] B; [reflexivity|]. specialize (LB e' He'). unfold ns in *. lia.
  - destruct (IH b S') as (e & H1 & H2 & H3).
    { replace (last (b :: rest) first) with (last rest b) in T; [lia|]. rewrite last_step. reflexivity. }
    exists e. split; [right; exact H1|]. split; [exact H2|]. intros e' [<-|He'] B; [cbn in B; lia|]. apply H3; auto.
Qed.
Print Assumptions C114_one_window.

(** *** A run over two files *)
(** Ten seconds of data each: two flashes at 1 s and 2 s, of which the polygon [west] holds the first. *)
Definition lt_stats (ps : list parent) : stat_record :=
  [("number", pad 1 (Z.of_nat (List.length ps)))] ++ map (fun k => (k, lit "0")) (tl statistics_names).
Definition lt_clock (t : Z) : clock := mkClock (fun i => t + i * 1000000000) (fun i => t + i * 1000000000) (fun i => t + i * 1000000000) (fun i => t + (i + 2) * 1000000000).
Definition lt_disk (n : string) : res glmfile :=
  if String.eqb n "a" then Ok (mkFile 0 (lt_clock 0) [pF; pG; pE]) else Ok (mkFile 10000000000 (lt_clock 10000000000) [pF; pG; pE]).
Definition lt_edges : list datetime := [mkDT 1 1 0 0 0 0; mkDT 1 1 0 0 10 0; mkDT 1 1 0 0 20 0; mkDT 1 1 0 0 30 0].
Definition lt_opts (me : Z) : stat_options := mkOpts (0, 100)%Q (-1, 100)%Q (0, 1000)%Q me 1.
Definition lt_base (t : Z) (b : option Z) : Z := 0.
Lemma lt_good : forall n, exists f F G E, good_file lt_disk n f F G E.
Proof.
  intros n. unfold good_file, lt_disk. destruct (String.eqb n "a"); do 4 eexists; (split; [reflexivity|]); (split; [reflexivity|]); (split; [apply p_opened|]);
  (intros x [<-|[<-|[]]]; (eexists; split; [left; reflexivity|]); split; (eexists; split; [reflexivity|]; split; reflexivity)).
Qed.
Lemma lt_run : run_ok lt_disk lt_stats ["b"; "a"] [10; 0] (0, 5 # 2)%Q (0, 2)%Q west.
Proof.
  constructor.
  - constructor; [|constructor; [|constructor]]; (eexists; split; [reflexivity|cbn; lia]).
  - repeat constructor; cbn; intuition discriminate.
  - intros n _. apply lt_good.
  - intros [x|] [y|] t; cbn; try discriminate. rewrite !andb_true_iff, !Qlt_bool_iff. intros [[[? ?] ?] ?]. split; eexists; (split; [reflexivity|]; split; assumption).
  - intros ps k Hk. assert (PD : plain_text (pad 1 (Z.of_nat (List.length ps)))).
    { intros c Hc. pose proof (pad_digits 1 (Z.of_nat (List.length ps))) as P. unfold digits in P. rewrite Forall_forall in P. destruct (P c Hc) as (d' & B & ->).
      assert (K : d' = 0 \/ d' = 1 \/ d' = 2 \/ d' = 3 \/ d' = 4 \/ d' = 5 \/ d' = 6 \/ d' = 7 \/ d' = 8 \/ d' = 9) by lia.
      repeat (destruct K as [->|K]; [split; [discriminate|split; discriminate]|]). subst d'. split; [discriminate|split; discriminate]. }
    assert (Z0 : plain_text (lit "0")) by (intros c [<-|[]]; split; [discriminate|split; discriminate]).
    unfold lt_stats. cbn in Hk. destruct Hk as [<-|Hk]; [eexists; split; [exists [], (map (fun k => (k, lit "0")) (tl statistics_names)); split; [reflexivity|intros []]|exact PD]|].
    exists (lit "0"). split; [|exact Z0].
    repeat (destruct Hk as [<-|Hk];
      [first [exists (firstn 1 (lt_stats ps)), (skipn 2 (lt_stats ps)); split; [reflexivity|cbn; intuition discriminate]
             |exists (firstn 2 (lt_stats ps)), (skipn 3 (lt_stats ps)); split; [reflexivity|cbn; intuition discriminate]
             |exists (firstn 3 (lt_stats ps)), (skipn 4 (lt_stats ps)); split; [reflexivity|cbn; intuition discriminate]
             |exists (firstn 4 (lt_stats ps)), (skipn 5 (lt_stats ps)); split; [reflexivity|cbn; intuition discriminate]
             |exists (firstn 5 (lt_stats ps)), (skipn 6 (lt_stats ps)); split; [reflexivity|cbn; intuition discriminate]
             |exists (firstn 6 (lt_stats ps)), (skipn 7 (lt_stats ps)); split; [reflexivity|cbn; intuition discriminate]
             |exists (firstn 7 (lt_stats ps)), (skipn 8 (lt_stats ps)); split; [reflexivity|cbn; intuition discriminate]
             |exists (firstn 8 (lt_stats ps)), (skipn 9 (lt_stats ps)); split; [reflexivity|cbn; intuition discriminate]]|]). destruct Hk.
  - intros ps. split; cbn; intuition discriminate.
Qed.
Example C114_table_ex : (forall n, In n ["b"; "a"] -> has_near lt_disk (0, 5 # 2)%Q (0, 2)%Q (lt_opts 1) n) /\ (2 <= List.length lt_edges)%nat /\
  exists text, flash_table (fun l => l) (fun _ => mkChild 0 0 None None None None) lt_disk lt_base lt_stats ["b"; "a"] (mkDT 1 1 0 0 0 0) lt_edges (0, 5 # 2)%Q (0, 2)%Q west (lt_opts 1) = Ok text /\
    map (fun l => firstn 3 l) (tl (read_table text)) =
    [[lit "0001-01-01T00:00:00"; lit "0001-01-01T00:00:10"; lit "1"]; [lit "0001-01-01T00:00:10"; lit "0001-01-01T00:00:20"; lit "1"];
     [lit "0001-01-01T00:00:20"; lit "0001-01-01T00:00:30"; lit "0"]].
Proof.
  split; [|split; [cbn; lia|]].
  - intros n _. unfold has_near. destruct (lt_good n) as (f & F & G & E & GF). exists f, F, G, E.
    assert (K : F = pF /\ G = pG /\ E = pE) by (destruct GF as (D & EF & _); unfold lt_disk in D; destruct (String.eqb n "a"); injection D as <-; injection EF as <- <- <-; auto).
    destruct K as (-> & -> & ->). exists (mkRow 1 0 (pob 1 1 4 10 0 1 1)). split; [exact GF|]. split; [left; reflexivity|].
    unfold near. split; [eexists; split; [reflexivity|split; reflexivity]|]. split; [eexists; split; [reflexivity|split; reflexivity]|]. split; cbn; lia.
  - eexists. split; vm_compute; reflexivity.
Qed.
(** With at least two events asked for, no flash of the rectangle is left and there is no table. *)
Example C114_refuted_ex : exists n, In n ["b"; "a"] /\ ~ has_near lt_disk (0, 5 # 2)%Q (0, 2)%Q (lt_opts 2) n.
Proof.
  exists "a". split; [right; left; reflexivity|]. intros (f & F & G & E & x & (D & EF & _) & Hx & N1 & N2 & N3 & N4). cbn in D. injection D as <-. injection EF as <- <- <-.
  destruct Hx as [<-|[<-|[]]]; [cbn in N3; lia|]. destruct N1 as (v & [= <-] & _ & B). discriminate B.
Qed.
Example C114_window_ex : StronglySorted (fun a b => instant a < instant b) lt_edges /\
  counts 0 west (0, 100)%Q (-1, 100)%Q (0, 1000)%Q 1 1 (hd (mkDT 1 1 0 0 0 0) lt_edges, last (tl lt_edges) (mkDT 1 1 0 0 0 0)) (mkFile 0 (lt_clock 0) [pF; pG; pE]) (mkRow 1 0 (pob 1 1 4 10 0 1 1)).
Proof.
  split; [repeat constructor|]. exists pF, pG, pE. split; [reflexivity|]. split; [left; reflexivity|]. cbv zeta. split; [vm_compute; split; [discriminate|reflexivity]|]. split; [reflexivity|].
  split; [eexists; split; [reflexivity|split; discriminate]|]. split; [eexists; split; [reflexivity|split; discriminate]|]. split; [eexists; split; [reflexivity|split; discriminate]|]. split; cbn; lia.
Qed.
