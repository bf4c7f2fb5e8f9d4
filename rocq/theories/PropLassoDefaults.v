(** C123: what the options of the statistics within polygons do to the table. *)
From Coq Require Import String Ascii List ZArith QArith Bool Lia Permutation.
From Verif Require Import Base BaseProofs FileName Traversal TraversalSpec TraversalProofs Glm GlmSpec GlmProofs GlmProofs2 GlmProofs3 PropGlm
  Pipeline ChunkSpec PropChunks Points PointsSpec PointsProofs PropPoints Output LassoTable LassoTableSpec PropLassoTable LassoDefaults.
Import ListNotations.
Open Scope string_scope.
Open Scope list_scope.
Open Scope Z_scope.


(** Polygons that hold nothing. *)
Definition nowhere : fval -> fval -> fval -> bool := fun _ _ _ => false.
(** A flash of one of the files. *)
Definition flash_in (disk : string -> res glmfile) (names : list string) (x : row obs) : Prop :=
  exists n f F G E, In n names /\ disk n = Ok f /\ g_data f = [F; G; E] /\ In x F.
(** The files can be read and have flashes, groups and events as they should. *)
Definition readable (disk : string -> res glmfile) (names : list string) : Prop :=
  forall n, In n names -> exists f F G E, good_file disk n f F G E.
(** The bounds of the options. *)
Definition passes (o : stat_options) (p : parent) : bool :=
  (within (so_area o) (p_area p) && within (metres (so_alt o)) (Some (p_ctr_alt p)) && within (so_energy o) (p_energy p))%bool.

Section Tables.
Variables (set_order : list Z -> list Z) (junk : nat -> child).
Hypothesis HP : forall l, Permutation (set_order l) l.
Variables (disk : string -> res glmfile) (parent_base : Z -> option Z -> Z) (size_stats : list parent -> stat_record).
Local Notation made_table := (flash_table set_order junk disk parent_base size_stats).

Lemma lookup_names : forall names d ts st, fold_res (add_file disk) names (d, ts) = Ok st ->
  forall t n, dict_get (fst st) t = Ok n -> In n names \/ dict_get d t = Ok n.
Proof.
  induction names as [|m names IH]; intros d ts st H t n G; cbn in H; [inversion H; subst; auto|].
  apply bind_ok_inv in H. destruct H as (s1 & H1 & H). unfold add_file in H1. apply bind_ok_inv in H1. destruct H1 as (f & _ & H1). inversion H1; subst.
  cbn [fst snd] in H. destruct (IH _ _ _ H t n G) as [I|I]; [left; right; exact I|]. rewrite dict_get_set in I.
  destruct (whole_second (g_product f) =? t); [inversion I; subst; left; left; reflexivity|right; exact I].
Qed.
Lemma series_from : forall names t_start q files w, subset_series set_order junk disk parent_base names t_start None q = Ok files -> In w files ->
  exists n f, In n names /\ disk n = Ok f /\ data_of_file set_order junk (Some (parent_base t_start None)) q f = Ok w.
Proof.
  intros names t_start q files w H I. unfold subset_series in H. apply bind_ok_inv in H. destruct H as (c & OC & H). unfold iterate in H.
  destruct (map_res_back _ _ _ _ _ _ H I) as (t & _ & E). unfold data_for_time in E. apply bind_ok_inv in E. destruct E as (n & D & E). apply bind_ok_inv in E. destruct E as (f & Df & E).
  exists n, f. split; [|auto]. unfold open_collection in OC. apply bind_ok_inv in OC. destruct OC as (st & FO & OC). inversion OC; subst. cbn [cl_lookup] in D.
  destruct (lookup_names names [] [] st FO t n D) as [K|K]; [exact K|discriminate].
Qed.
(** Every row of the files that are read comes from a flash. *)
Lemma rows_from : forall names t_start lonr latr o files w p, readable disk names ->
  subset_series set_order junk disk parent_base names t_start None (box_query lonr latr o) = Ok files -> In w files -> In p (snd w) ->
  exists x, flash_in disk names x /\ p_area p = o_area (rdat x) /\ p_energy p = o_energy (rdat x) /\ p_ctr_alt p = 0%Q.
Proof.
  intros names t_start lonr latr o files w p R H I Hp. destruct (series_from _ _ _ _ _ H I) as (n & f & Hn & D & Ew).
  destruct (R n Hn) as (f' & F & G & E & (D' & EF & OP & V)). assert (f' = f) by congruence. subst f'.
  destruct (flashes_of_file set_order junk _ _ f F G E w HP EF OP (box_checked lonr latr o) Ew) as (Fs & Gs & Es & S & _ & EW).
  pose proof (box_selection set_order HP lonr latr o F G E Fs Gs Es OP V S) as IN. unfold fill_parents in EW. rewrite map_map in EW.
  pose proof (in_map but_n _ _ Hp) as J. rewrite EW in J. apply in_map_iff in J. destruct J as (x & Ex & Hx). apply IN in Hx. destruct Hx as [Hx _]. exists x. split; [exists n, f, F, G, E; auto|].
  unfold but_n in Ex. cbn in Ex. injection Ex as H1 H2 H3 H4 H5 H6 H7 H8 H9 H10 H11 H12. auto.
Qed.
Lemma filter_none : forall A (k : A -> bool) l, (forall a, In a l -> k a = false) -> filter k l = [].
Proof. induction l as [|a l IH]; intros H; [reflexivity|]. cbn. rewrite (H a (or_introl eq_refl)). apply IH. intros; apply H; right; auto. Qed.
Lemma filter_same : forall A (k k' : A -> bool) l, (forall a, In a l -> k a = k' a) -> filter k l = filter k' l.
Proof. induction l as [|a l IH]; intros H; [reflexivity|]. cbn. rewrite (H a (or_introl eq_refl)), IH by (intros; apply H; right; auto). reflexivity. Qed.
Lemma T_ext : forall (f g : datetime * datetime -> list child * list parent) wins, (forall e, snd (f e) = snd (g e)) ->
  match map f wins with
  | [] => Err ValueError
  | _ => stat_text (map (fun x => with_times (size_stats (snd (fst x))) (snd x)) (combine (map f wins) wins))
  end =
  match map g wins with
  | [] => Err ValueError
  | _ => stat_text (map (fun x => with_times (size_stats (snd (fst x))) (snd x)) (combine (map g wins) wins))
  end.
Proof.
  intros f g wins Q. rewrite !combine_map, !map_map. cbn [fst snd].
  replace (map (fun x => with_times (size_stats (snd (f x))) x) wins) with (map (fun x => with_times (size_stats (snd (g x))) x) wins) by (apply map_ext; intros e; rewrite Q; reflexivity).
  destruct wins; reflexivity.
Qed.
(** Two runs whose rows pass alike give the same table. *)
Lemma table_ext : forall names t_start edges lonr latr lasso lasso' o o', readable disk names ->
  from_two (so_events o) = from_two (so_events o') -> from_two (so_groups o) = from_two (so_groups o') ->
  (forall x p, flash_in disk names x -> p_area p = o_area (rdat x) -> p_energy p = o_energy (rdat x) -> p_ctr_alt p = 0%Q ->
     (lasso (p_init_lon p) (p_init_lat p) (p_start p) && passes o p = lasso' (p_init_lon p) (p_init_lat p) (p_start p) && passes o' p)%bool) ->
  made_table names t_start edges lonr latr lasso o = made_table names t_start edges lonr latr lasso' o'.
Proof.
  intros names t_start edges lonr latr lasso lasso' o o' R E1 E2 K. unfold flash_table. rewrite <- E1, <- E2.
  destruct (subset_series set_order junk disk parent_base names (nanos t_start) None (collection_query (Some lonr) (Some latr) (from_two (so_events o)) (from_two (so_groups o)))) as [files|x] eqn:S; [|reflexivity].
  cbn [bind]. set (base := parent_base (nanos t_start) None). unfold event_flash_series. rewrite !map_map.
  assert (W : forall e, snd (filtered (so_area o) (metres (so_alt o)) (so_energy o)
         (let ws := map (chopped lasso (edge_seconds base (fst e)) (edge_seconds base (snd e))) files in (List.concat (map fst ws), List.concat (map snd ws)))) =
       snd (filtered (so_area o') (metres (so_alt o')) (so_energy o')
         (let ws := map (chopped lasso' (edge_seconds base (fst e)) (edge_seconds base (snd e))) files in (List.concat (map fst ws), List.concat (map snd ws))))).
  { intros e. rewrite !window_flashes. f_equal. apply map_ext_in. intros w Hw. apply filter_same. intros p Hp.
    destruct (rows_from _ _ _ _ _ _ _ _ R S Hw Hp) as (x & Hx & A & B & C). specialize (K x p Hx A B C). unfold passes in K. unfold keep. rewrite <- !andb_assoc. f_equal. rewrite !andb_assoc in *. exact K. }
  apply (T_ext _ _ (windows_of edges)). exact W.
Qed.

Lemma zero_metres : forall r, within (metres r) (Some 0%Q) = true <-> (fst r <= 0 <= snd r)%Q.
Proof.
  intros r. rewrite within_between. unfold between, metres. cbn [fst snd]. split.
  - intros (y & [= <-] & H1 & H2). split; apply (Qmult_lt_0_le_reg_r _ _ 1000); try reflexivity; rewrite Qmult_0_l; auto.
  - intros [H1 H2]. exists 0%Q. split; [reflexivity|]. split; rewrite <- (Qmult_0_l 1000) ; [|rewrite (Qmult_0_l 1000); rewrite <- (Qmult_0_l 1000)]; apply Qmult_le_compat_r; auto; discriminate.
Qed.

(** Bounds on altitude that include 0 change nothing. *)
Theorem C123_altitude : forall names t_start edges lonr latr lasso area energy me mg alt alt', readable disk names ->
  (fst alt <= 0 <= snd alt)%Q -> (fst alt' <= 0 <= snd alt')%Q ->
  made_table names t_start edges lonr latr lasso (mkOpts area alt energy me mg) = made_table names t_start edges lonr latr lasso (mkOpts area alt' energy me mg).
Proof.
  intros names t_start edges lonr latr lasso area energy me mg alt alt' R A A'. apply table_ext; auto. intros x p _ _ _ Z0. unfold passes. cbn [so_area so_alt so_energy]. rewrite Z0.
  rewrite (proj2 (zero_metres alt) A), (proj2 (zero_metres alt') A'). reflexivity.
Qed.
(** Others remove every flash: the table is that of polygons which hold nothing. *)
Theorem C123_altitude_refuted : forall names t_start edges lonr latr lasso o, readable disk names ->
  ~ (fst (so_alt o) <= 0 <= snd (so_alt o))%Q ->
  made_table names t_start edges lonr latr lasso o = made_table names t_start edges lonr latr nowhere o.
Proof.
  intros names t_start edges lonr latr lasso o R A. apply table_ext; auto. intros x p _ _ _ Z0. unfold passes, nowhere. rewrite Z0.
  destruct (within (metres (so_alt o)) (Some 0%Q)) eqn:W; [apply zero_metres in W; contradiction|]. rewrite !andb_false_r. reflexivity.
Qed.
(** Minima of events and groups below two change nothing. *)
Theorem C123_minima : forall names t_start edges lonr latr lasso area alt energy me mg me' mg', readable disk names -> me < 2 -> me' < 2 -> mg < 2 -> mg' < 2 ->
  made_table names t_start edges lonr latr lasso (mkOpts area alt energy me mg) = made_table names t_start edges lonr latr lasso (mkOpts area alt energy me' mg').
Proof.
  intros names t_start edges lonr latr lasso area alt energy me mg me' mg' R H1 H2 H3 H4. apply table_ext; auto; cbn; unfold from_two;
  repeat match goal with |- context [?a <? 2] => destruct (Z.ltb_spec a 2); try lia end; reflexivity.
Qed.
(** Without options, flashes of usual area and energy are all used: wider bounds give the same table. *)
Theorem C123_defaults_partial : forall names t_start edges lonr latr lasso o, readable disk names ->
  (forall x, flash_in disk names x -> ranged (0, inject_Z (10 ^ 10))%Q (o_area (rdat x)) /\ ranged (0, inject_Z (10 ^ 38))%Q (o_energy (rdat x))) ->
  (fst (so_area o) <= 0 /\ inject_Z (10 ^ 10) <= snd (so_area o))%Q -> (fst (so_energy o) <= 0 /\ inject_Z (10 ^ 38) <= snd (so_energy o))%Q ->
  (fst (so_alt o) <= 0 <= snd (so_alt o))%Q -> so_events o < 2 -> so_groups o < 2 ->
  made_table names t_start edges lonr latr lasso default_options = made_table names t_start edges lonr latr lasso o.
Proof.
  intros names t_start edges lonr latr lasso o R U [A1 A2] [B1 B2] Z H1 H2.
  assert (F2 : forall m, m < 2 -> from_two 1 = from_two m) by (intros m Hm; unfold from_two; destruct (Z.ltb_spec m 2); [reflexivity|lia]).
  apply table_ext; [exact R|apply F2; exact H1|apply F2; exact H2|]. intros x p Hx E1 E2 Z0. f_equal. destruct (U x Hx) as [(a & Ea & La & Ha) (b & Eb & Lb & Hb)].
  assert (P : forall o0 : stat_options, ranged (so_area o0) (o_area (rdat x)) -> (fst (so_alt o0) <= 0 <= snd (so_alt o0))%Q -> ranged (so_energy o0) (o_energy (rdat x)) -> passes o0 p = true).
  { intros o0 R1 R2 R3. unfold passes. rewrite Z0, E1, E2, (proj2 (zero_metres (so_alt o0)) R2), (proj2 (within_between (so_area o0) _) R1), (proj2 (within_between (so_energy o0) _) R3). reflexivity. }
  rewrite (P default_options), (P o); [reflexivity|exists a|exact Z|exists b|exists a|split; discriminate|exists b]; (split; [assumption|]); cbn [fst snd] in *; split; try assumption; eapply Qle_trans; eassumption.
Qed.
(** But a flash with a larger area, in the unit of the files, is not used: when all are larger,
    the table is that of polygons which hold nothing. *)
Theorem C123_large_refuted : forall names t_start edges lonr latr lasso, readable disk names ->
  (forall x, flash_in disk names x -> exists a, o_area (rdat x) = Some a /\ (inject_Z (10 ^ 10) < a)%Q) ->
  made_table names t_start edges lonr latr lasso default_options = made_table names t_start edges lonr latr nowhere default_options.
Proof.
  intros names t_start edges lonr latr lasso R U. apply table_ext; auto. intros x p Hx E1 _ _. destruct (U x Hx) as (a & Ea & L). unfold passes, nowhere.
  destruct (within (so_area default_options) (p_area p)) eqn:W; [|cbn [andb]; rewrite andb_false_r; reflexivity].
  exfalso. apply within_between in W. destruct W as (y & Ey & _ & H2). rewrite E1, Ea in Ey. injection Ey as <-. cbn [default_options so_area snd] in H2. exact (Qlt_not_le _ _ L H2).
Qed.
End Tables.
Print Assumptions C123_altitude.
Print Assumptions C123_altitude_refuted.
Print Assumptions C123_minima.
Print Assumptions C123_defaults_partial.
Print Assumptions C123_large_refuted.

(** The two files of C114: one flash for each of the first two windows by default, and none
    from a kilometre of altitude up. *)
Definition numbers (t : res pystr) : list pystr := match t with Ok s => map (fun l => nth 2 l []) (tl (read_table s)) | Err _ => [] end.
Example C123_ex : readable lt_disk ["b"; "a"] /\
  (forall x, flash_in lt_disk ["b"; "a"] x -> ranged (0, inject_Z (10 ^ 10))%Q (o_area (rdat x)) /\ ranged (0, inject_Z (10 ^ 38))%Q (o_energy (rdat x))) /\
  (let t o := numbers (flash_table (fun l => l) (fun _ => mkChild 0 0 None None None None) lt_disk lt_base lt_stats ["b"; "a"] (mkDT 1 1 0 0 0 0) lt_edges (0, 5 # 2)%Q (0, 2)%Q west o) in
   t default_options = [lit "1"; lit "1"; lit "0"] /\ t (mkOpts (0, 100) (1, 100) (0, 1000) 1 1)%Q = [lit "0"; lit "0"; lit "0"]).
Proof.
  split; [intros n _; apply lt_good|]. split.
  - intros x (n & f & F & G & E & _ & D & EF & Hx). unfold lt_disk in D. destruct (String.eqb n "a"); injection D as <-; injection EF as <- <- <-; destruct Hx as [<-|[<-|[]]];
    (split; eexists; (split; [reflexivity|]); split; discriminate).
  - split; vm_compute; reflexivity.
Qed.
