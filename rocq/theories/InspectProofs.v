(** Lemmas for Inspect.v. *)
From Coq Require Import List ZArith QArith Bool String Lia Permutation.
From Verif Require Import Base BaseProofs Traversal TraversalSpec TraversalProofs TraversalProofs2 TraversalProofs3 TraversalProofs4
  Glm GlmSpec GlmProofs GlmProofs2 GlmProofs3 GlmProofs4 ChunkProofs Times TimesProofs Plot PlotProofs Points Inspect.
Import ListNotations.
Open Scope list_scope.
Open Scope Z_scope.
Local Notation tbl := (table obs).

(** * No KeyError on opening *)
Definition nokey {A} (r : res A) : Prop := r <> Err KeyError.
Lemma nokey_ok : forall A (a : A), nokey (Ok a).
Proof. discriminate. Qed.
Lemma nokey_bind : forall A B (r : res A) (f : A -> res B), nokey r -> (forall a, r = Ok a -> nokey (f a)) -> nokey (bind r f).
Proof. intros A B [a|e] f H K; [apply K; reflexivity|]. cbn. intros E. apply H. congruence. Qed.
Lemma nokey_gather : forall A (l : list A) idx, nokey (gather l idx).
Proof.
  intros A l idx. induction idx as [|i idx IH]; [discriminate|]. cbn. destruct (nth_error l i); [|discriminate].
  apply nokey_bind; [exact IH|discriminate].
Qed.
Lemma nokey_assign : forall A (f : A -> obs -> obs) vals T, nokey (assign f vals T).
Proof. intros. unfold assign. destruct (Nat.eqb _ _); discriminate. Qed.
Lemma nokey_flatten : forall l, nokey (asarray_flatten l).
Proof. intros [|h l]; [discriminate|]. unfold asarray_flatten. destruct (forallb _ _); discriminate. Qed.

Lemma nokey_lookup : forall (G : tbl) ids, (forall i, In i ids -> exists g, In g G /\ rid g = i) ->
  nokey (map_res (fun eid => match groups_get (map rid G) eid with Some l => Ok l | None => Err KeyError end) ids).
Proof.
  intros G ids. induction ids as [|i ids IH]; intros H; [discriminate|]. cbn [map_res]. apply nokey_bind.
  - destruct (H i (or_introl eq_refl)) as (g & Hg & Eg). unfold groups_get.
    pose proof (positions_length _ (@rid obs) i G 0) as L. destruct (positions 0 i (map rid G)); [|discriminate].
    exfalso. cbn in L. assert (K : In g (filter (fun r => rid r =? i) G)) by (apply filter_In; split; auto; apply Z.eqb_eq; auto).
    destruct (filter (fun r => rid r =? i) G); [destruct K|discriminate].
  - intros a _. apply nokey_bind; [apply IH; intros; apply H; right; auto|discriminate].
Qed.

Lemma nokey_replicate : forall F G E : tbl, G <> [] -> linked G E ->
  nokey (replicate_parent_ids (tv3 F G E) "flash_id" "event_parent_group_id").
Proof.
  intros F G E HG HL. unfold replicate_parent_ids, tv3, ascend, descend. cbn [tv_evars tv_pvars tv_data entity_ids parent_ids map levels_from rev app fold_res].
  apply nokey_bind; [|intros st _; destruct (rp_last st); discriminate].
  unfold rp_step at 1. cbn [String.eqb Ascii.eqb Bool.eqb rp_collect bind rp_last].
  unfold rp_step at 1. cbn [String.eqb Ascii.eqb Bool.eqb rp_collect bind rp_last].
  apply nokey_bind.
  - apply nokey_bind; [|intros a _; discriminate].
    apply nokey_bind.
    { destruct (map rpid E); [discriminate|]. unfold entity_groups. destruct G; [congruence|discriminate]. }
    intros g Eg. apply nokey_bind.
    { destruct (map rpid E) as [|i l] eqn:EE; [discriminate|]. try rewrite EE in Eg. unfold entity_groups in Eg. destruct G as [|g0 G]; [congruence|].
      assert (g = map rid (g0 :: G)) by (cbn in Eg; injection Eg as <-; reflexivity). subst g. apply nokey_lookup. intros j Hj. rewrite <- EE in Hj. apply in_map_iff in Hj.
      destruct Hj as (e & <- & He). destruct (HL e He) as (gg & Hgg & Egg). eauto. }
    intros idx _. apply nokey_bind; [apply nokey_flatten|]. intros fl _. apply nokey_bind; [apply nokey_gather|]. discriminate.
  - intros st _. unfold rp_step. cbn. discriminate.
Qed.

Lemma nokey_count : forall F G E : tbl, nokey (count_children (tv3 F G E) "flash_id" (Some "event_id"%string)).
Proof.
  intros F G E. unfold count_children. apply nokey_bind; [|discriminate].
  assert (K : forall (l : list (level obs)) st, nokey (fold_res (cc_step "flash_id" (Some "event_id"%string)) l st)).
  { intros l. induction l as [|lv l IH]; intros st; [discriminate|]. cbn [fold_res]. apply nokey_bind; [|auto].
    destruct lv as [[[k e] p] T]. unfold cc_step. apply nokey_bind; [|discriminate]. destruct (cc_next st); [|discriminate].
    apply nokey_bind; [|discriminate]. unfold parent_groups. destruct T; discriminate. }
  apply K.
Qed.

Lemma nokey_init : forall F G E : tbl, linked G E -> nokey (init_parent_child [F; G; E]).
Proof.
  intros F G E HL. unfold init_parent_child. rewrite init3. cbn [bind].
  destruct (Nat.eqb (List.length F) 0 || Nat.eqb (List.length G) 0 || Nat.eqb (List.length E) 0)%bool eqn:ND.
  - cbn [bind]. apply nokey_bind; [apply nokey_assign|]. intros E' _. apply nokey_bind; [apply nokey_assign|]. intros F1 _.
    apply nokey_bind; [apply nokey_assign|]. intros G1 _. apply nokey_bind; [apply nokey_assign|]. discriminate.
  - apply nokey_bind.
    { apply nokey_replicate; auto. intros ->. cbn in ND. destruct (Nat.eqb (List.length F) 0); discriminate. }
    intros ids _. apply nokey_bind; [apply nokey_assign|]. intros E' _. apply nokey_bind.
    { apply nokey_bind; [apply nokey_count|]. intros [|c0 [|c1 r]] _; discriminate. }
    intros [[c0 c1] c2] _. apply nokey_bind; [apply nokey_assign|]. intros F1 _.
    apply nokey_bind; [apply nokey_assign|]. intros G1 _. apply nokey_bind; [apply nokey_assign|]. discriminate.
Qed.

Lemma nokey_fix : forall s F G E (ds : list (table times)), s_rows s = [F; G; E] -> List.length ds = 3%nat -> nokey (fix_times s ds).
Proof.
  intros s F G E ds HS L. unfold fix_times. destruct (in_time s && _)%bool; [|discriminate]. destruct (s_path s); [|discriminate].
  apply nokey_bind.
  - generalize vars_to_correct. intros l. induction l as [|v l IH]; [discriminate|]. cbn [map_res]. apply nokey_bind; [|intros; apply nokey_bind; [exact IH|discriminate]].
    unfold corrected. destruct (level_of v), (s_attr s v); try discriminate. destruct (nth_error _ _); discriminate.
  - intros cols Hc.
    assert (K : Forall (fun c => (snd (fst c) < 3)%nat) cols).
    { revert cols Hc. generalize vars_to_correct. intros l. induction l as [|v l IH]; intros cols Hc; cbn [map_res] in Hc; [injection Hc as <-; constructor|].
      destruct (corrected s v) as [c|] eqn:C; [|discriminate]. cbn [bind] in Hc. destruct (map_res (corrected s) l) as [cs|] eqn:CS; [|discriminate].
      cbn [bind] in Hc. injection Hc as <-. constructor; [|auto]. unfold corrected in C. destruct (level_of v) as [k|]; [|discriminate]. destruct (s_attr s v); [|discriminate].
      destruct (nth_error (s_rows s) k) eqn:N; [|discriminate]. injection C as <-. cbn. rewrite HS in N.
      change 3%nat with (List.length [F; G; E]). apply nth_error_Some. congruence. }
    clear Hc. revert ds L. induction K as [|c cols Hc K IH]; intros ds L; [discriminate|]. cbn [fold_res]. apply nokey_bind.
    + unfold assign_times. destruct (nth_error ds (snd (fst c))) eqn:N; [destruct (Nat.eqb _ _); discriminate|]. apply nth_error_None in N. lia.
    + intros ds' H. apply IH. unfold assign_times in H. destruct (nth_error ds (snd (fst c))); [|discriminate]. destruct (Nat.eqb _ _); [|discriminate].
      injection H as <-. rewrite <- L. clear. revert ds. generalize (snd (fst c)). intros k ds. revert k. induction ds as [|d ds IH]; intros [|k]; cbn; auto.
Qed.

Lemma nokey_open : forall so nav h s F G E, (forall l, Permutation (so l) l) -> s_rows s = [F; G; E] ->
  nokey (glm_open_timed so nav (mkOptions true true true true) true h s).
Proof.
  intros so nav h s F G E sp HS. unfold glm_open_timed. cbn [check_tree calculate_parent_child opt_area opt_energy].
  rewrite (open_dataset_eq s F G E HS). rewrite repair_data.
  destruct F as [|f F]; [rewrite repair_empty by (cbn; auto); discriminate|].
  destruct G as [|g G]; [rewrite repair_empty by (cbn; auto); discriminate|].
  destruct E as [|e E]; [rewrite repair_empty by (cbn; auto); discriminate|].
  destruct (repair_exact so sp (f :: F) (g :: G) (e :: E)) as (F' & G' & E' & R & PG & KF & KE & _); try discriminate.
  rewrite R. cbn [res_map bind map3 map].
  apply nokey_bind.
  - apply nokey_bind; [|discriminate]. apply nokey_init. intros x Hx. rewrite map_map in Hx. apply in_map_iff in Hx. destruct Hx as (x0 & <- & Hx0).
    apply KE in Hx0. destruct Hx0 as (_ & gg & Hgg & Egg). exists (with_data (fun a => fst (opened s 1 a)) gg). split; [|exact Egg].
    rewrite map_map. apply in_map_iff. exists gg. split; [reflexivity|]. eapply Permutation_in; [apply Permutation_sym; exact PG|exact Hgg].
  - intros ds1 _. apply nokey_bind; [eapply nokey_fix; [exact HS|reflexivity]|]. intros tm _.
    destruct (check_area_units h (check_area_overflow h ds1)) as [h2 ds2]. apply nokey_bind; [|discriminate].
    unfold change_energy_units. destruct (negb _); [discriminate|]. destruct (negb _); [discriminate|]. destruct (negb _); discriminate.
Qed.

(** * Least and largest *)
Lemma col_min_some : forall l v, (exists q, In (Some q) l) -> col_min l = Ok v -> exists m, v = Some m /\ In (Some m) l /\ forall q, In (Some q) l -> (m <= q)%Q.
Proof.
  intros l v (q0 & H0) H. destruct l as [|a l]; [discriminate|]. unfold col_min in H.
  set (f := fun m v => match m, v with None, v => v | m, None => m | Some a, Some b => Some (Qminb a b) end).
  assert (K : forall l acc, match fold_left f l acc with
     | Some m => (acc = Some m \/ In (Some m) l) /\ (forall q, acc = Some q \/ In (Some q) l -> (m <= q)%Q)
     | None => acc = None /\ forall q, ~ In (Some q) l end).
  { clear. induction l as [|x l IH]; intros acc; cbn [fold_left].
    - destruct acc as [m|]; [split; [auto|]; intros q [E|[]]; injection E as <-; apply Qle_refl|split; [auto|intros q []]].
    - specialize (IH (f acc x)). destruct (fold_left f l (f acc x)) as [m|].
      + destruct IH as [A B]. destruct acc as [p|], x as [y|]; cbn [f] in *.
        * pose proof (Qminb_le p y) as (h1 & h2 & h3). split.
          { destruct A as [A|A]; [|right; right; exact A]. destruct h3 as [h3|h3]; rewrite h3 in A; [left|right; left]; exact A. }
          intros q [Hq|[Hq|Hq]]; [injection Hq as <-; eapply Qle_trans; [apply B; left; reflexivity|exact h1]|injection Hq as <-; eapply Qle_trans; [apply B; left; reflexivity|exact h2]|apply B; right; exact Hq].
        * split; [destruct A as [A|A]; [left; exact A|right; right; exact A]|]. intros q [Hq|[Hq|Hq]]; [apply B; auto|discriminate|apply B; auto].
        * split; [destruct A as [A|A]; [right; left; exact A|right; right; exact A]|]. intros q [Hq|[Hq|Hq]]; [discriminate|apply B; auto|apply B; auto].
        * split; [destruct A as [A|A]; [discriminate|right; right; exact A]|]. intros q [Hq|[Hq|Hq]]; [discriminate|discriminate|apply B; auto].
      + destruct IH as [A B]. destruct acc, x; cbn [f] in A; try discriminate. split; [reflexivity|]. intros q [Hq|Hq]; [discriminate|apply (B q Hq)]. }
  assert (V : v = fold_left f (a :: l) None) by (injection H as <-; reflexivity). specialize (K (a :: l) None). destruct (fold_left f (a :: l) None) as [m|].
  - exists m. split; [exact V|]. destruct K as [[K|K] B]; [discriminate|]. split; auto.
  - destruct K as [_ K]. exfalso. apply (K q0 H0).
Qed.
Lemma Qmaxb_ge : forall a b, (a <= Qmaxb a b)%Q /\ (b <= Qmaxb a b)%Q /\ (Qmaxb a b = a \/ Qmaxb a b = b).
Proof.
  intros a b. unfold Qmaxb. destruct (Qlt_bool a b) eqn:E.
  - apply Qlt_bool_iff in E. split; [apply Qlt_le_weak; exact E|]. split; [apply Qle_refl|auto].
  - split; [apply Qle_refl|]. split; [|auto]. apply Qnot_lt_le. intros K. apply Qlt_bool_iff in K. congruence.
Qed.
Lemma col_max_some : forall l v, (exists q, In (Some q) l) -> col_max l = Ok v -> exists m, v = Some m /\ In (Some m) l /\ forall q, In (Some q) l -> (q <= m)%Q.
Proof.
  intros l v (q0 & H0) H. destruct l as [|a l]; [discriminate|]. unfold col_max in H.
  set (f := fun m v => match m, v with None, v => v | m, None => m | Some a, Some b => Some (Qmaxb a b) end).
  assert (K : forall l acc, match fold_left f l acc with
     | Some m => (acc = Some m \/ In (Some m) l) /\ (forall q, acc = Some q \/ In (Some q) l -> (q <= m)%Q)
     | None => acc = None /\ forall q, ~ In (Some q) l end).
  { clear. induction l as [|x l IH]; intros acc; cbn [fold_left].
    - destruct acc as [m|]; [split; [auto|]; intros q [E|[]]; injection E as <-; apply Qle_refl|split; [auto|intros q []]].
    - specialize (IH (f acc x)). destruct (fold_left f l (f acc x)) as [m|].
      + destruct IH as [A B]. destruct acc as [p|], x as [y|]; cbn [f] in *.
        * pose proof (Qmaxb_ge p y) as (h1 & h2 & h3). split.
          { destruct A as [A|A]; [|right; right; exact A]. destruct h3 as [h3|h3]; rewrite h3 in A; [left|right; left]; exact A. }
          intros q [Hq|[Hq|Hq]]; [injection Hq as <-; eapply Qle_trans; [exact h1|apply B; left; reflexivity]|injection Hq as <-; eapply Qle_trans; [exact h2|apply B; left; reflexivity]|apply B; right; exact Hq].
        * split; [destruct A as [A|A]; [left; exact A|right; right; exact A]|]. intros q [Hq|[Hq|Hq]]; [apply B; auto|discriminate|apply B; auto].
        * split; [destruct A as [A|A]; [right; left; exact A|right; right; exact A]|]. intros q [Hq|[Hq|Hq]]; [discriminate|apply B; auto|apply B; auto].
        * split; [destruct A as [A|A]; [discriminate|right; right; exact A]|]. intros q [Hq|[Hq|Hq]]; [discriminate|discriminate|apply B; auto].
      + destruct IH as [A B]. destruct acc, x; cbn [f] in A; try discriminate. split; [reflexivity|]. intros q [Hq|Hq]; [discriminate|apply (B q Hq)]. }
  assert (V : v = fold_left f (a :: l) None) by (injection H as <-; reflexivity). specialize (K (a :: l) None). destruct (fold_left f (a :: l) None) as [m|].
  - exists m. split; [exact V|]. destruct K as [[K|K] B]; [discriminate|]. split; auto.
  - destruct K as [_ K]. exfalso. apply (K q0 H0).
Qed.

(** * The flash drawn *)
Lemma plot_flash_eq : forall ck (F G E : tbl) i, F <> [] -> G <> [] -> E <> [] ->
  plot_flash ck [F; G; E] i =
  match with_id F i with
  | [] => Err IndexError
  | f :: _ => Ok (mkPicture (columns (lev1 G [i])) (columns (lev2 G E [i])) (mkScatter (sc_lon (columns (lev0 F [i]))) (sc_lat (columns (lev0 F [i]))) None) (rid f, t_first ck (rid f), t_last ck (rid f)))
  end.
Proof.
  intros ck F G E i HF HG HE. unfold plot_flash. rewrite get_flashes_levels by auto. cbn [bind].
  assert (L : lev0 F [i] = with_id F i) by (unfold lev0; cbn; apply app_nil_r). rewrite L.
  destruct (with_id F i) as [|f r]; [reflexivity|]. reflexivity.
Qed.
