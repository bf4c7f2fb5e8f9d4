(** count_children, replicate_parent_ids and check_parent_child. *)
From Coq Require Import List ZArith Bool String Lia Sorting.Sorted.
From Verif Require Import Base BaseProofs Traversal TraversalSpec TraversalProofs TraversalProofs2.
Import ListNotations.
Open Scope Z_scope.

Section Proofs.
Context {P : Type}.
Local Notation table := (list (row P)).
Local Notation row := (row P).

(** * count_children *)
Fixpoint chain_counts (last : list Z) (Ts : list table) : list (list nat) :=
  match Ts with
  | [] => []
  | T :: Ts' => map (fun i => List.length (with_parent T i)) last :: chain_counts (map rid T) Ts'
  end.

Lemma chain_counts_length : forall Ts last, List.length (chain_counts last Ts) = List.length Ts.
Proof. induction Ts; intros; simpl; auto. Qed.

Lemma chain_counts_nth : forall Ts (A X Y : table) k,
  nth_error (A :: Ts) k = Some X -> nth_error Ts k = Some Y ->
  nth_error (chain_counts (map rid A) Ts) k
  = Some (map (fun r => List.length (with_parent Y (rid r))) X).
Proof.
  induction Ts as [|T Ts IH]; intros A X Y k HX HY; [destruct k; discriminate|].
  destruct k.
  - simpl in *. inversion HX; inversion HY; subst. rewrite map_map. auto.
  - cbn [nth_error chain_counts] in *. apply (IH T X Y k); auto.
Qed.

Lemma cc_before : forall entity child es ps (Ts : list table) k last all,
  (forall e, In e es -> e <> entity) ->
  fold_res (cc_step entity child) (levels_from k es ps Ts) (mkCC false last all)
  = Ok (mkCC false last all).
Proof.
  induction es as [|e es IH]; intros ps Ts k last all H; simpl; auto.
  destruct ps; auto. destruct Ts; auto. simpl.
  assert (E : String.eqb e entity = false) by (apply String.eqb_neq; apply H; left; auto).
  rewrite E. simpl.
  replace (if match child with Some c => String.eqb e c | None => true end
           then mkCC false last all else mkCC false last all) with (mkCC false last all)
    by (destruct (match child with Some c => String.eqb e c | None => true end); auto).
  apply IH. intros x Hx; apply H; right; auto.
Qed.

Lemma cc_one : forall entity child k e p (T : table) last all,
  e <> entity -> T <> [] ->
  cc_step entity child (mkCC true last all) (k, e, p, T)
  = Ok (mkCC (negb match child with Some c => String.eqb e c | None => true end)
          (map rid T) (all ++ [map (fun i => List.length (with_parent T i)) last])).
Proof.
  intros. unfold cc_step. cbn [cc_next cc_last cc_all]. unfold parent_groups.
  rewrite (grouper_ok _ rpid T) by auto. cbn [bind cc_last cc_all cc_next].
  assert (E : String.eqb e entity = false) by (apply String.eqb_neq; auto).
  rewrite E.
  replace (map (fun eid => match groups_get (map rpid T) eid with
      Some l => List.length l | None => 0%nat end) last)
    with (map (fun i => List.length (with_parent T i)) last).
  2:{ apply map_ext. intros i. symmetry. apply groups_get_count. }
  destruct (match child with Some c => String.eqb e c | None => true end); reflexivity.
Qed.

Lemma cc_one_empty : forall entity child k e p last all,
  cc_step entity child (mkCC true last all) (k, e, p, @nil row) = Err AttributeError.
Proof. reflexivity. Qed.

Definition is_nil (T : table) : bool := match T with [] => true | _ => false end.

(** Down to a child level at relative position [n]. *)
Lemma cc_to_child : forall entity ch n es ps (Ts : list table) k last all,
  (forall e, In e es -> e <> entity) -> NoDup es -> nth_error es n = Some ch ->
  List.length es = List.length ps -> List.length es = List.length Ts ->
  fold_res (cc_step entity (Some ch)) (levels_from k es ps Ts) (mkCC true last all)
  = if existsb is_nil (firstn (S n) Ts) then Err AttributeError
    else Ok (mkCC false (map rid (nth n Ts [])) (all ++ chain_counts last (firstn (S n) Ts))).
Proof.
  induction n as [|n IH]; intros es ps Ts k last all H ND Hn L1 L2;
    (destruct es as [|e es]; [discriminate|]); (destruct ps as [|p ps]; [discriminate|]);
    (destruct Ts as [|T Ts]; [discriminate|]); cbn [levels_from fold_res].
  - simpl in Hn. inversion Hn; subst e. destruct T as [|r T0]; [reflexivity|].
    rewrite cc_one by (try congruence; apply H; left; auto).
    rewrite String.eqb_refl. cbn [bind negb firstn existsb is_nil orb].
    rewrite cc_before by (intros x Hx; apply H; right; auto). reflexivity.
  - inversion ND as [|x0 l0 Hnot ND']; subst x0 l0. destruct T as [|r T0]; [reflexivity|].
    rewrite cc_one by (try congruence; apply H; left; auto).
    assert (E : String.eqb e ch = false).
    { apply String.eqb_neq. intros ->. apply Hnot. cbn [nth_error] in Hn.
      exact (nth_error_In _ _ Hn). }
    rewrite E. cbn [bind negb]. rewrite IH; auto.
    + change (firstn (S (S n)) ((r :: T0) :: Ts)) with ((r :: T0) :: firstn (S n) Ts).
      cbn [existsb is_nil orb chain_counts nth].
      destruct (existsb is_nil (firstn (S n) Ts)); auto. rewrite <- app_assoc. reflexivity.
    + intros x Hx; apply H; right; auto.
Qed.

(** No such child level below: all the way down. *)
Lemma cc_to_bottom : forall entity ch es ps (Ts : list table) k last all,
  (forall e, In e es -> e <> entity) -> ~ In ch es ->
  List.length es = List.length ps -> List.length es = List.length Ts ->
  Forall (fun T => T <> []) Ts ->
  exists last', fold_res (cc_step entity (Some ch)) (levels_from k es ps Ts) (mkCC true last all)
  = Ok (mkCC true last' (all ++ chain_counts last Ts)).
Proof.
  induction es as [|e es IH]; intros ps Ts k last all H Hn L1 L2 HT;
    (destruct ps as [|p ps]; [|]); try discriminate;
    (destruct Ts as [|T Ts]); try discriminate; cbn [levels_from fold_res].
  - rewrite app_nil_r. eauto.
  - inversion HT; subst.
    rewrite cc_one by (try congruence; apply H; left; auto).
    assert (E : String.eqb e ch = false).
    { apply String.eqb_neq. intros ->. apply Hn. left; auto. }
    rewrite E. cbn [bind negb].
    destruct (IH ps Ts (S k) (map rid T) (all ++ [map (fun i => List.length (with_parent T i)) last]))
      as [last' Hl]; auto.
    + intros x Hx; apply H; right; auto.
    + intros Hx; apply Hn; right; auto.
    + exists last'. rewrite Hl. cbn [chain_counts]. rewrite <- app_assoc. reflexivity.
Qed.

Lemma nodup_split_ne : forall (e1 e2 : list string) e, NoDup (e1 ++ e :: e2) ->
  (forall x, In x e1 -> x <> e) /\ (forall x, In x e2 -> x <> e) /\ NoDup e2.
Proof.
  intros e1 e2 e ND. assert (H := NoDup_remove_2 _ _ _ ND). split; [|split].
  - intros x Hx ->. apply H. apply in_or_app; auto.
  - intros x Hx ->. apply H. apply in_or_app; auto.
  - apply NoDup_remove_1 in ND. clear H. induction e1; simpl in ND; auto.
    inversion ND; auto.
Qed.

Lemma cc_at : forall entity child k p (T : table) ds,
  fold_res (cc_step entity child) ((k, entity, p, T) :: ds) (mkCC false [] [])
  = fold_res (cc_step entity child) ds (mkCC true (map rid T) []).
Proof.
  intros entity child k p T ds. cbn [fold_res].
  assert (E : cc_step entity child (mkCC false [] []) (k, entity, p, T)
              = Ok (mkCC true (map rid T) [])).
  { unfold cc_step. cbn [cc_next bind cc_last cc_all]. rewrite String.eqb_refl.
    destruct (match child with Some c => String.eqb entity c | None => true end); reflexivity. }
  rewrite E. reflexivity.
Qed.

Theorem count_children_spec : forall (ds : list table) evars pvars tv m c e ch,
  trav_init ds evars pvars = Ok tv -> NoDup evars ->
  nth_error evars m = Some e -> nth_error evars c = Some ch -> (m < c)%nat ->
  (forall j, (m < j <= c)%nat -> nth_error ds j <> Some []) ->
  exists out, count_children tv e (Some ch) = Ok out /\ List.length out = (c - m)%nat /\
  forall k A B, (k < c - m)%nat -> nth_error ds (m + k) = Some A ->
    nth_error ds (S (m + k)) = Some B ->
    nth_error out k = Some (map (fun r => List.length (with_parent B (rid r))) A).
Proof.
  intros ds evars pvars tv m c e ch Hi ND He Hc Hmc Hne.
  apply init_inv in Hi. destruct Hi as [-> [L1 L2]].
  destruct (levels_split ds evars pvars m e L1 L2 He)
    as (e1 & e2 & p1 & p & p2 & d1 & T & d2 & E1 & E2 & E3 & Le1 & Lp1 & Ld1 & Le2 & Ld2 & Hp & Hp2 & Hlev).
  subst evars. destruct (nodup_split_ne _ _ _ ND) as [Hn1 [Hn2 ND2]].
  unfold count_children, descend. cbn [tv_evars tv_pvars tv_data]. rewrite Hlev.
  rewrite fold_res_app, cc_before by auto. cbn [bind].
  assert (Hc2 : nth_error e2 (c - S m) = Some ch).
  { rewrite nth_error_app2 in Hc by lia. replace (c - List.length e1)%nat with (S (c - S m)) in Hc by lia.
    exact Hc. }
  rewrite cc_at.
  rewrite (cc_to_child e ch (c - S m)) by auto.
  assert (Hnn : existsb is_nil (firstn (S (c - S m)) d2) = false).
  { destruct (existsb is_nil (firstn (S (c - S m)) d2)) eqn:Ex; auto.
    apply existsb_exists in Ex. destruct Ex as [X [HX Hnil]].
    destruct X; [|discriminate]. apply In_nth_error in HX. destruct HX as [q Hq].
    assert (Hql : (q < List.length (firstn (S (c - S m)) d2))%nat)
      by (apply nth_error_Some; congruence).
    rewrite firstn_length in Hql.
    assert (Hq' : nth_error d2 q = Some []).
    { rewrite <- Hq. rewrite <- (firstn_skipn (S (c - S m)) d2) at 1.
      rewrite nth_error_app1; auto. rewrite firstn_length; lia. }
    exfalso. apply (Hne (S m + q)%nat); [lia|]. subst ds.
    rewrite nth_error_app2 by lia. replace (S m + q - List.length d1)%nat with (S q) by lia.
    exact Hq'. }
  rewrite Hnn. cbn [bind cc_all app]. eexists. split; [reflexivity|]. split.
  - rewrite chain_counts_length, firstn_length.
    assert (c - S m < List.length e2)%nat by (apply nth_error_Some; congruence). lia.
  - intros k A B Hk HA HB.
    apply (chain_counts_nth (firstn (S (c - S m)) d2) T A B k).
    + subst ds. rewrite nth_error_app2 in HA by lia.
      replace (m + k - List.length d1)%nat with k in HA by lia.
      destruct k; [exact HA|]. cbn [nth_error] in HA |- *.
      rewrite <- (firstn_skipn (S (c - S m)) d2) in HA.
      rewrite nth_error_app1 in HA; auto. rewrite firstn_length.
      assert (c - S m < List.length e2)%nat by (apply nth_error_Some; congruence). lia.
    + subst ds. rewrite nth_error_app2 in HB by lia.
      replace (S (m + k) - List.length d1)%nat with (S k) in HB by lia. cbn [nth_error] in HB.
      rewrite <- (firstn_skipn (S (c - S m)) d2) in HB.
      rewrite nth_error_app1 in HB; auto. rewrite firstn_length.
      assert (c - S m < List.length e2)%nat by (apply nth_error_Some; congruence). lia.
Qed.

Theorem count_children_empty : forall (ds : list table) evars pvars tv m c j e ch,
  trav_init ds evars pvars = Ok tv -> NoDup evars ->
  nth_error evars m = Some e -> nth_error evars c = Some ch -> (m < j <= c)%nat ->
  nth_error ds j = Some [] -> count_children tv e (Some ch) = Err AttributeError.
Proof.
  intros ds evars pvars tv m c j e ch Hi ND He Hc Hmc Hne.
  apply init_inv in Hi. destruct Hi as [-> [L1 L2]].
  destruct (levels_split ds evars pvars m e L1 L2 He)
    as (e1 & e2 & p1 & p & p2 & d1 & T & d2 & E1 & E2 & E3 & Le1 & Lp1 & Ld1 & Le2 & Ld2 & Hp & Hp2 & Hlev).
  subst evars. destruct (nodup_split_ne _ _ _ ND) as [Hn1 [Hn2 ND2]].
  unfold count_children, descend. cbn [tv_evars tv_pvars tv_data]. rewrite Hlev.
  rewrite fold_res_app, cc_before by auto. cbn [bind].
  assert (Hc2 : nth_error e2 (c - S m) = Some ch).
  { rewrite nth_error_app2 in Hc by lia. replace (c - List.length e1)%nat with (S (c - S m)) in Hc by lia.
    exact Hc. }
  rewrite cc_at.
  rewrite (cc_to_child e ch (c - S m)) by auto.
  replace (existsb is_nil (firstn (S (c - S m)) d2)) with true; auto.
  symmetry. apply existsb_exists. exists []. split; auto.
  subst ds. rewrite nth_error_app2 in Hne by lia.
  replace (j - List.length d1)%nat with (S (j - S m)) in Hne by lia. cbn [nth_error] in Hne.
  apply (nth_error_In _ (j - S m)).
  rewrite <- (firstn_skipn (S (c - S m)) d2) in Hne. rewrite nth_error_app1 in Hne; auto.
  assert (j - S m < List.length (firstn (S (c - S m)) d2 ++ skipn (S (c - S m)) d2))%nat
    by (apply nth_error_Some; congruence).
  rewrite firstn_skipn in H. rewrite firstn_length. lia.
Qed.

(** Without a child argument: the immediate children only. *)
Theorem count_children_immediate : forall (ds : list table) evars pvars tv m e,
  trav_init ds evars pvars = Ok tv -> NoDup evars -> nth_error evars m = Some e ->
  match nth_error ds m, nth_error ds (S m) with
  | Some A, Some [] => count_children tv e None = Err AttributeError
  | Some A, Some B => count_children tv e None
                      = Ok [map (fun r => List.length (with_parent B (rid r))) A]
  | _, _ => count_children tv e None = Ok []
  end.
Proof.
  intros ds evars pvars tv m e Hi ND He.
  apply init_inv in Hi. destruct Hi as [-> [L1 L2]].
  destruct (levels_split ds evars pvars m e L1 L2 He)
    as (e1 & e2 & p1 & p & p2 & d1 & T & d2 & E1 & E2 & E3 & Le1 & Lp1 & Ld1 & Le2 & Ld2 & Hp & Hp2 & Hlev).
  subst evars. destruct (nodup_split_ne _ _ _ ND) as [Hn1 [Hn2 ND2]].
  unfold count_children, descend. cbn [tv_evars tv_pvars tv_data]. rewrite Hlev.
  rewrite fold_res_app, cc_before by auto. cbn [bind].
  rewrite cc_at.
  subst ds.
  assert (Hm : nth_error (d1 ++ T :: d2) m = Some T) by (rewrite <- Ld1; apply nth_error_middle).
  rewrite Hm. clear Hm.
  rewrite nth_error_app2 by lia. replace (S m - List.length d1)%nat with 1%nat by lia. cbn [nth_error].
  destruct e2 as [|e' e2].
  - destruct d2; [|discriminate]. reflexivity.
  - destruct p2 as [|p' p2]; [discriminate|]. destruct d2 as [|B d2]; [discriminate|].
    cbn [levels_from fold_res]. destruct B as [|b B0]; [reflexivity|].
    rewrite cc_one by (try congruence; apply Hn2; left; auto). cbn [bind negb app].
    rewrite cc_before by (intros x Hx; apply Hn2; right; auto). cbn [bind cc_all].
    rewrite map_map. reflexivity.
Qed.

(** A child name that is not below the entity: counts for every lower level. *)
Theorem count_children_all_below : forall (ds : list table) evars pvars tv m e ch,
  trav_init ds evars pvars = Ok tv -> NoDup evars -> nth_error evars m = Some e ->
  (forall c, nth_error evars c = Some ch -> (c <= m)%nat) ->
  (forall j, (m < j)%nat -> nth_error ds j <> Some []) ->
  exists out, count_children tv e (Some ch) = Ok out /\
  List.length out = (List.length ds - S m)%nat /\
  forall k A B, nth_error ds (m + k) = Some A -> nth_error ds (S (m + k)) = Some B ->
    nth_error out k = Some (map (fun r => List.length (with_parent B (rid r))) A).
Proof.
  intros ds evars pvars tv m e ch Hi ND He Hc Hne.
  apply init_inv in Hi. destruct Hi as [-> [L1 L2]].
  destruct (levels_split ds evars pvars m e L1 L2 He)
    as (e1 & e2 & p1 & p & p2 & d1 & T & d2 & E1 & E2 & E3 & Le1 & Lp1 & Ld1 & Le2 & Ld2 & Hp & Hp2 & Hlev).
  subst evars. destruct (nodup_split_ne _ _ _ ND) as [Hn1 [Hn2 ND2]].
  unfold count_children, descend. cbn [tv_evars tv_pvars tv_data]. rewrite Hlev.
  rewrite fold_res_app, cc_before by auto. cbn [bind].
  rewrite cc_at.
  destruct (cc_to_bottom e ch e2 p2 d2 (S m) (map rid T) []) as [last' Hl]; auto.
  - intros Hin. apply In_nth_error in Hin. destruct Hin as [q Hq].
    specialize (Hc (S m + q)%nat). rewrite nth_error_app2 in Hc by lia.
    replace (S m + q - List.length e1)%nat with (S q) in Hc by lia. cbn [nth_error] in Hc.
    specialize (Hc Hq). lia.
  - apply Forall_forall. intros X HX ->. apply In_nth_error in HX. destruct HX as [q Hq].
    apply (Hne (S m + q)%nat); [lia|]. subst ds. rewrite nth_error_app2 by lia.
    replace (S m + q - List.length d1)%nat with (S q) by lia. exact Hq.
  - rewrite Hl. cbn [bind cc_all app]. eexists. split; [reflexivity|]. split.
    + rewrite chain_counts_length. subst ds. rewrite app_length. simpl. lia.
    + intros k A B HA HB. apply (chain_counts_nth d2 T A B k); subst ds.
      * rewrite nth_error_app2 in HA by lia. replace (m + k - List.length d1)%nat with k in HA by lia. auto.
      * rewrite nth_error_app2 in HB by lia.
        replace (S (m + k) - List.length d1)%nat with (S k) in HB by lia. exact HB.
Qed.

(** Double counting. *)
Lemma filter_or_length : forall A (p q : A -> bool) l,
  (forall x, In x l -> p x = true -> q x = false) ->
  List.length (filter (fun x => p x || q x)%bool l)
  = (List.length (filter p l) + List.length (filter q l))%nat.
Proof.
  induction l as [|x l IH]; intros H; simpl; auto.
  assert (H' : forall y, In y l -> p y = true -> q y = false) by (intros; apply H; auto; right; auto).
  destruct (p x) eqn:Ep; simpl.
  - rewrite (H x (or_introl eq_refl) Ep). simpl. rewrite IH; auto.
  - destruct (q x); simpl; rewrite IH; auto.
Qed.

Lemma count_sum : forall (A B : table), NoDup (map rid A) ->
  list_sum (map (fun r => List.length (with_parent B (rid r))) A)
  = List.length (filter (fun s => existsb (fun r => rid r =? rpid s) A) B).
Proof.
  induction A as [|a A IH]; intros B ND; simpl.
  - rewrite filter_none; auto.
  - simpl in ND. inversion ND; subst. rewrite IH by auto.
    unfold with_parent. rewrite <- filter_or_length.
    + f_equal. apply filter_ext. intros s. rewrite Z.eqb_sym. auto.
    + intros s Hs E. apply Z.eqb_eq in E. destruct (existsb (fun r => rid r =? rpid s) A) eqn:Ex; auto.
      apply existsb_exists in Ex. destruct Ex as [r [Hr Er]]. apply Z.eqb_eq in Er.
      exfalso. apply H1. rewrite <- E, <- Er. apply in_map; auto.
Qed.

Lemma count_sum_consistent : forall (A B : table), NoDup (map rid A) ->
  (forall s, In s B -> exists r, In r A /\ rid r = rpid s) ->
  list_sum (map (fun r => List.length (with_parent B (rid r))) A) = List.length B.
Proof.
  intros A B ND H. rewrite count_sum by auto. f_equal. apply filter_all.
  intros s Hs. apply existsb_exists. destruct (H s Hs) as [r [Hr E]]. exists r. split; auto.
  apply Z.eqb_eq; auto.
Qed.

(** * replicate_parent_ids *)

(** Parent id of the row with id [i], for all ids of a list. *)
Definition parent_of (T : table) (i : Z) : option Z :=
  option_map rpid (find (fun r => rid r =? i) T).
Fixpoint traverse (f : Z -> option Z) (l : list Z) : option (list Z) :=
  match l with
  | [] => Some []
  | i :: l' => match f i, traverse f l' with Some a, Some b => Some (a :: b) | _, _ => None end
  end.

Lemma find_unique : forall (T : table) i, NoDup (map rid T) ->
  match find (fun r => rid r =? i) T with
  | Some r => with_id T i = [r]
  | None => with_id T i = []
  end.
Proof.
  intros T i ND. destruct (find (fun r => rid r =? i) T) as [r|] eqn:E.
  - apply find_some in E. destruct E as [Hr Er]. apply Z.eqb_eq in Er. subst i.
    apply filter_key_unique; auto.
  - apply filter_none. intros x Hx. apply (find_none _ _ E); auto.
Qed.

Lemma positions_single : forall (T : table) i, NoDup (map rid T) ->
  match find (fun r => rid r =? i) T with
  | Some r => exists n, groups_get (map rid T) i = Some [n] /\ nth_error T n = Some r
  | None => groups_get (map rid T) i = None
  end.
Proof.
  intros T i ND. assert (HU := find_unique T i ND).
  assert (HG := gather_positions _ (@rid P) i T). fold (with_id T i) in HG.
  assert (HL := positions_length _ (@rid P) i T 0). fold (with_id T i) in HL.
  unfold groups_get. destruct (find (fun r => rid r =? i) T) as [r|].
  - rewrite HU in *. destruct (positions 0 i (map rid T)) as [|n [|n' l]]; simpl in HL; try lia.
    exists n. split; auto. simpl in HG. destruct (nth_error T n); [|discriminate]. congruence.
  - rewrite HU in HL. destruct (positions 0 i (map rid T)); simpl in HL; [auto|lia].
Qed.

Lemma rp_lookup : forall (T : table) ids, NoDup (map rid T) ->
  match traverse (parent_of T) ids with
  | Some l => exists e_idx rows,
      map_res (fun eid => match groups_get (map rid T) eid with
                          | Some l => Ok l | None => Err KeyError end) ids = Ok e_idx /\
      Forall (fun x => List.length x = 1%nat) e_idx /\
      gather T (List.concat e_idx) = Ok rows /\ map rpid rows = l
  | None => map_res (fun eid => match groups_get (map rid T) eid with
                          | Some l => Ok l | None => Err KeyError end) ids = Err KeyError
  end.
Proof.
  induction ids as [|i ids IH]; intros ND; simpl.
  - exists [], []. repeat split; auto.
  - specialize (IH ND). assert (HS := positions_single T i ND). unfold parent_of at 1.
    destruct (find (fun r => rid r =? i) T) as [r|]; simpl.
    + destruct HS as [n [-> Hn]]. simpl. destruct (traverse (parent_of T) ids) as [l|].
      * destruct IH as [e_idx [rows [-> [HF [HG HR]]]]]. simpl.
        exists ([n] :: e_idx), (r :: rows). repeat split; auto.
        -- simpl. rewrite Hn, HG. auto.
        -- simpl. rewrite HR. auto.
      * rewrite IH. auto.
    + rewrite HS. auto.
Qed.

Lemma asarray_ok : forall l, Forall (fun x : list nat => List.length x = 1%nat) l ->
  asarray_flatten l = Ok (List.concat l).
Proof.
  intros [|h l] H; auto. unfold asarray_flatten.
  replace (forallb _ (h :: l)) with true; auto. symmetry. apply forallb_forall.
  rewrite Forall_forall in H. intros x Hx. rewrite (H x Hx), (H h (or_introl eq_refl)). auto.
Qed.

Definition opt_key {A} (o : option A) : res A :=
  match o with Some a => Ok a | None => Err KeyError end.

(** One collecting turn of the loop. *)
Lemma rp_collect_step : forall entity pvar k e pv (T : table) ids,
  e <> entity -> pv <> pvar -> (ids <> [] -> T <> []) -> NoDup (map rid T) ->
  rp_step entity pvar (mkRP true (Some ids)) (k, e, Some pv, T)
  = (l <- opt_key (traverse (parent_of T) ids) ;; Ok (mkRP true (Some l))).
Proof.
  intros entity pvar k e pv T ids He Hp HT ND. unfold rp_step. cbn [rp_collect rp_last].
  apply String.eqb_neq in He. rewrite He. apply String.eqb_neq in Hp. rewrite Hp.
  unfold entity_groups.
  assert (HL := rp_lookup T ids ND).
  destruct ids as [|i ids].
  - simpl. auto.
  - rewrite (grouper_ok _ rid T) by (apply HT; congruence). cbn [bind]. destruct (traverse (parent_of T) (i :: ids)) as [l|].
    + destruct HL as [e_idx [rows [-> [HF [HG HR]]]]]. cbn [bind].
      rewrite asarray_ok by auto. cbn [bind]. rewrite HG. cbn [bind opt_key]. rewrite HR. auto.
    + rewrite HL. reflexivity.
Qed.

(** Going up through tables listed bottom to top. *)
Fixpoint climb (Ts : list table) (ids : list Z) : option (list Z) :=
  match Ts with
  | [] => Some ids
  | T :: Ts' => match traverse (parent_of T) ids with Some l => climb Ts' l | None => None end
  end.

Lemma rp_climb : forall entity pvar n es ps (Ts : list table) k ids,
  List.length es = n -> List.length ps = n -> List.length Ts = n ->
  (forall e, In e es -> e <> entity) -> (forall p, In p ps -> p <> None /\ p <> Some pvar) ->
  (ids <> [] -> Forall (fun T => T <> []) Ts) -> Forall (fun T => NoDup (map rid T)) Ts ->
  fold_res (rp_step entity pvar) (rev (levels_from k es ps Ts)) (mkRP true (Some ids))
  = (l <- opt_key (climb (rev Ts) ids) ;; Ok (mkRP true (Some l))).
Proof.
  induction n as [|n IH]; intros es ps Ts k ids L1 L2 L3 He Hp HT HU.
  - destruct es; [|discriminate]. destruct Ts; [|discriminate]. reflexivity.
  - destruct (@exists_last _ es) as [es' [e ->]]; [destruct es; [discriminate|congruence]|].
    destruct (@exists_last _ ps) as [ps' [p ->]]; [destruct ps; [discriminate|congruence]|].
    destruct (@exists_last _ Ts) as [Ts' [T ->]]; [destruct Ts; [discriminate|congruence]|].
    rewrite app_length in L1, L2, L3. simpl in L1, L2, L3.
    rewrite rev_levels_snoc by lia. cbn [fold_res].
    assert (HT1 : ids <> [] -> T <> []).
    { intros Hi. specialize (HT Hi). apply Forall_app in HT. destruct HT as [_ HT].
      apply Forall_inv in HT. auto. }
    assert (HT' : ids <> [] -> Forall (fun T => T <> []) Ts').
    { intros Hi. specialize (HT Hi). apply Forall_app in HT. apply HT. }
    apply Forall_app in HU. destruct HU as [HU' HU]. apply Forall_inv in HU.
    destruct (Hp p) as [Hp1 Hp2]; [apply in_or_app; right; left; auto|].
    destruct p as [pv|]; [|congruence].
    rewrite rp_collect_step; auto.
    2:{ apply He. apply in_or_app; right; left; auto. }
    2:{ congruence. }
    rewrite rev_app_distr. simpl. destruct (traverse (parent_of T) ids) as [l|] eqn:Et; simpl; auto.
    apply IH; try lia; auto.
    + intros x Hx; apply He; apply in_or_app; left; auto.
    + intros x Hx; apply Hp; apply in_or_app; left; auto.
    + intros Hl. apply HT'. intros ->. simpl in Et. congruence.
Qed.

(** Levels that leave the state alone. *)
Lemma rp_idle : forall entity pvar es ps (Ts : list table) k last,
  (forall p, In p ps -> p <> Some pvar) ->
  List.length es = List.length ps -> List.length es = List.length Ts ->
  fold_res (rp_step entity pvar) (rev (levels_from k es ps Ts)) (mkRP false last)
  = Ok (mkRP false last).
Proof.
  induction es as [|e es IH]; intros ps Ts k last Hp L1 L2; [reflexivity|].
  destruct ps as [|p ps]; [discriminate|]. destruct Ts as [|T Ts]; [discriminate|].
  cbn [levels_from rev]. rewrite fold_res_app, IH; auto.
  2:{ intros x Hx; apply Hp; right; auto. }
  cbn [bind fold_res]. unfold rp_step. cbn [rp_collect rp_last].
  replace (if String.eqb e entity then false else false) with false
    by (destruct (String.eqb e entity); auto).
  cbn [bind]. destruct p as [pv|]; auto.
  assert (E : String.eqb pv pvar = false).
  { apply String.eqb_neq. intros ->. apply (Hp (Some pvar)); [left; auto|auto]. }
  rewrite E. auto.
Qed.

Lemma traverse_nth : forall f l l', traverse f l = Some l' ->
  List.length l' = List.length l /\
  forall k i, nth_error l k = Some i -> exists a, nth_error l' k = Some a /\ f i = Some a.
Proof.
  induction l as [|i l IH]; intros l' H; simpl in H.
  - inversion H; subst. split; auto. intros [|k] i Hk; discriminate.
  - destruct (f i) as [a|] eqn:Ef; [|discriminate].
    destruct (traverse f l) as [b|] eqn:Et; [|discriminate]. inversion H; subst.
    destruct (IH b eq_refl) as [L R]. split; [simpl; lia|].
    intros [|k] j Hk; simpl in *; [inversion Hk; subst; eauto|eauto].
Qed.

Lemma traverse_none : forall f l, traverse f l = None ->
  exists k i, nth_error l k = Some i /\ f i = None.
Proof.
  induction l as [|i l IH]; intros H; simpl in H; [discriminate|].
  destruct (f i) as [a|] eqn:Ef.
  - destruct (traverse f l); [discriminate|]. destruct (IH eq_refl) as [k [j [Hk Hj]]].
    exists (S k), j. auto.
  - exists 0%nat, i. auto.
Qed.

Lemma parent_of_some : forall (T : table) i a, parent_of T i = Some a ->
  exists q, In q T /\ rid q = i /\ rpid q = a.
Proof.
  intros T i a H. unfold parent_of in H. destruct (find (fun r => rid r =? i) T) as [q|] eqn:E;
    [|discriminate]. simpl in H. inversion H; subst. apply find_some in E.
  destruct E as [Hq E]. apply Z.eqb_eq in E. eauto.
Qed.

Lemma parent_of_none : forall (T : table) i, parent_of T i = None ->
  forall q, In q T -> rid q <> i.
Proof.
  intros T i H q Hq E. unfold parent_of in H.
  destruct (find (fun r => rid r =? i) T) eqn:Ef; [discriminate|].
  assert (Hn := find_none _ _ Ef q Hq). simpl in Hn. apply Z.eqb_neq in Hn. auto.
Qed.

(** Ancestor ids are unique when row ids are. *)
Lemma ancestor_lt : forall (ds : list table) c r m a, ancestor ds c r m a -> (m < c)%nat.
Proof. intros ds c r m a H. induction H; lia. Qed.

Lemma ancestor_fun : forall (ds : list table) c r m a b, unique_ids ds ->
  ancestor ds c r m a -> ancestor ds c r m b -> a = b.
Proof.
  intros ds c r m a b Hu H. revert b.
  induction H as [j r|c r m q T a H IH HT Hq Ha]; intros b Hb.
  - inversion Hb as [j' r' E1 E2 E3 E4|c' r' m' q' T' a' Hx HT' Hq' Ha']; subst; auto.
    apply ancestor_lt in Hx. lia.
  - inversion Hb as [j' r' E1 E2 E3 E4|c' r' m' q' T' a' Hx HT' Hq' Ha']; subst.
    + apply ancestor_lt in H. lia.
    + rewrite HT in HT'. inversion HT'; subst T'. specialize (IH _ Hx).
      rewrite (nodup_map_inj_in _ _ _ _ q q' (Hu _ _ HT) Hq Hq' IH). auto.
Qed.

(** [climb] follows ancestors: starting at ids of level [m+n], through the [n]
    tables at levels [m+n], ..., [m+1]. *)
Lemma climb_ancestor : forall (ds : list table) c (Tc : table) n m Ts ids,
  unique_ids ds -> (m + n < c)%nat ->
  List.length Ts = n ->
  (forall j T, nth_error Ts j = Some T -> nth_error ds (m + n - j) = Some T) ->
  List.length ids = List.length Tc ->
  (forall k r i, nth_error Tc k = Some r -> nth_error ids k = Some i -> ancestor ds c r (m + n) i) ->
  match climb Ts ids with
  | Some l => List.length l = List.length Tc /\
      forall k r, nth_error Tc k = Some r -> exists a, nth_error l k = Some a /\ ancestor ds c r m a
  | None => exists k r, nth_error Tc k = Some r /\ forall a, ~ ancestor ds c r m a
  end.
Proof.
  induction n as [|n IH]; intros m Ts ids Hu Hc LT HTs Lids Hids.
  - destruct Ts; [|discriminate]. simpl. split; auto. intros k r Hk.
    destruct (nth_error ids k) as [a|] eqn:Ea.
    + exists a. split; auto. specialize (Hids k r a Hk Ea). rewrite Nat.add_0_r in Hids. auto.
    + apply nth_error_None in Ea. assert (nth_error Tc k <> None) by congruence.
      apply nth_error_Some in H. lia.
  - destruct Ts as [|T Ts]; [discriminate|]. simpl.
    assert (HT0 := HTs 0%nat T eq_refl). rewrite Nat.sub_0_r in HT0.
    replace (m + S n)%nat with (S (m + n)) in * by lia.
    destruct (traverse (parent_of T) ids) as [l|] eqn:Et.
    + destruct (traverse_nth _ _ _ Et) as [Ll Hl].
      assert (LT' : List.length Ts = n) by (simpl in LT; lia).
      apply IH; [exact Hu|lia|exact LT'| |lia|].
      * intros j X HX. specialize (HTs (S j) X HX).
        replace (S (m + n) - S j)%nat with (m + n - j)%nat in HTs by lia. auto.
      * intros k r a Hk Ha. destruct (nth_error ids k) as [i|] eqn:Ei.
        -- destruct (Hl k i Ei) as [a' [Ha' Hp]]. rewrite Ha in Ha'. inversion Ha'; subst a'.
           destruct (parent_of_some _ _ _ Hp) as [q [Hq [Eq <-]]].
           eapply anc_up; eauto.
        -- apply nth_error_None in Ei. assert (nth_error Tc k <> None) by congruence.
           apply nth_error_Some in H. lia.
    + destruct (traverse_none _ _ Et) as [k [i [Hk Hi]]].
      destruct (nth_error Tc k) as [r|] eqn:Er.
      2:{ apply nth_error_None in Er. assert (nth_error ids k <> None) by congruence.
          apply nth_error_Some in H. lia. }
      exists k, r. split; auto. intros a Ha.
      (* the chain passes level S (m+n) at id i, which has no row *)
      assert (Hanc := Hids k r i Er Hk).
      assert (Hup : forall m' a', ancestor ds c r m' a' -> (m' <= m + n)%nat ->
        exists q, In q T /\ ancestor ds c r (S (m + n)) (rid q)).
      { intros m' a' H. remember (S (m + n)) as top. induction H as [j r|c r m0 q X a0 H IHa HX Hq Ha0]; intros Hle.
        - exfalso. lia.
        - destruct (Nat.eq_dec m0 (m + n)).
          + subst m0. exists q. rewrite <- Heqtop in HX. rewrite HT0 in HX. inversion HX; subst.
            split; auto.
          + apply IHa; auto. lia. }
      destruct (Hup m a Ha ltac:(lia)) as [q [Hq Hqa]].
      apply (parent_of_none _ _ Hi q Hq). eapply ancestor_fun; eauto.
Qed.

Theorem replicate_spec : forall (ds : list table) evars pvars tv m c e pv Tc,
  trav_init ds evars pvars = Ok tv -> NoDup evars -> NoDup pvars ->
  nth_error evars m = Some e -> nth_error pvars c = Some pv -> (m <= c)%nat ->
  nth_error ds (S c) = Some Tc ->
  unique_ids ds -> (Tc <> [] -> forall j, (m < j <= c)%nat -> nth_error ds j <> Some []) ->
  (exists l, replicate_parent_ids tv e pv = Ok l /\ List.length l = List.length Tc /\
     forall k r, nth_error Tc k = Some r ->
       exists a, nth_error l k = Some a /\ ancestor ds (S c) r m a) \/
  (replicate_parent_ids tv e pv = Err KeyError /\
   exists k r, nth_error Tc k = Some r /\ forall a, ~ ancestor ds (S c) r m a).
Proof.
  intros ds evars pvars tv m c e pv Tc Hi ND NDp He Hp Hmc HTc Hu Hne.
  apply init_inv in Hi. destruct Hi as [-> [L1 L2]].
  assert (Hcl : (c < List.length pvars)%nat) by (apply nth_error_Some; congruence).
  (* split at level S c *)
  destruct (nth_error evars (S c)) as [ec|] eqn:Hec; [|apply nth_error_None in Hec; lia].
  destruct (levels_split ds evars pvars (S c) ec L1 L2 Hec)
    as (e1 & e2 & p1 & p & p2 & d1 & T & d2 & E1 & E2 & E3 & Le1 & Lp1 & Ld1 & Le2 & Ld2 & Hpn & Hp2 & Hlev).
  assert (Hpc : p = Some pv /\ (forall q, In q p2 -> q <> Some pv) /\ (forall q, In q p1 -> q <> Some pv)).
  { assert (Hn : nth_error (None :: map Some pvars) (S c) = Some (Some pv)).
    { simpl. rewrite nth_error_map, Hp. auto. }
    assert (NDo : NoDup (None :: map Some pvars)).
    { constructor.
      - intros Hin. apply in_map_iff in Hin. destruct Hin as [x [Hx _]]. discriminate.
      - apply FinFun.Injective_map_NoDup; auto. intros a b Hab. congruence. }
    rewrite E2 in Hn, NDo. rewrite <- Lp1, nth_error_middle in Hn. inversion Hn; subst p.
    assert (Hr := NoDup_remove_2 _ _ _ NDo). split; auto. split; intros q Hq ->; apply Hr; apply in_or_app; auto. }
  destruct Hpc as [-> [Hq2 Hq1]].
  assert (T = Tc) by (rewrite E3, <- Ld1, nth_error_middle in HTc; congruence). subst T.
  (* split the upper part at level m *)
  assert (He1 : nth_error e1 m = Some e).
  { rewrite E1 in He. rewrite nth_error_app1 in He by lia. auto. }
  destruct (split_at _ _ _ _ He1) as [f1 [f2 [Ef Lf]]].
  destruct (nth_error p1 m) as [pm|] eqn:Hpm; [|apply nth_error_None in Hpm; lia].
  destruct (split_at _ _ _ _ Hpm) as [q1 [q2 [Eq Lq]]].
  destruct (nth_error d1 m) as [Dm|] eqn:Hdm; [|apply nth_error_None in Hdm; lia].
  destruct (split_at _ _ _ _ Hdm) as [g1 [g2 [Eg Lg]]].
  assert (Lf2 : List.length f2 = (c - m)%nat) by (rewrite Ef, app_length in Le1; simpl in Le1; lia).
  assert (Lq2 : List.length q2 = (c - m)%nat) by (rewrite Eq, app_length in Lp1; simpl in Lp1; lia).
  assert (Lg2 : List.length g2 = (c - m)%nat) by (rewrite Eg, app_length in Ld1; simpl in Ld1; lia).
  assert (HE : replicate_parent_ids (mkTrav evars (None :: map Some pvars) ds) e pv
               = opt_key (climb (rev g2) (map rpid Tc))).
  {
  unfold replicate_parent_ids, ascend, descend. cbn [tv_evars tv_pvars tv_data]. rewrite Hlev.
  rewrite rev_app_distr. cbn [rev]. rewrite <- app_assoc, fold_res_app.
  rewrite rp_idle by auto. cbn [bind app fold_res].
  
  assert (Estart : rp_step e pv (mkRP false None) (S c, ec, Some pv, Tc)
                   = Ok (mkRP true (Some (map rpid Tc)))).
  { unfold rp_step. cbn [rp_collect rp_last].
    replace (if String.eqb ec e then false else false) with false by (destruct (String.eqb ec e); auto).
    cbn [bind]. rewrite String.eqb_refl. reflexivity. }
  rewrite Estart. cbn [bind]. clear Estart.
  rewrite Ef, Eq, Eg. rewrite levels_from_app by lia. cbn [levels_from Nat.add].
  rewrite rev_app_distr. cbn [rev]. rewrite <- app_assoc, fold_res_app.
  rewrite (rp_climb e pv (c - m)); auto.
  2:{ intros x Hx ->. rewrite E1, Ef in ND. rewrite <- app_assoc in ND. cbn [app] in ND.
      apply NoDup_remove_2 in ND. apply ND. apply in_or_app. right. apply in_or_app. auto. }
  2:{ intros x Hx. split.
      - intros ->. assert (Hin : In (@None string) (map Some pvars)).
        { destruct q1 as [|x q1].
          - rewrite Eq in E2. simpl in E2. inversion E2 as [[Ea Eb]]. rewrite Eb.
            apply in_or_app; auto.
          - rewrite Eq in E2. simpl in E2. inversion E2 as [[Ea Eb]]. rewrite Eb.
            apply in_or_app. left. apply in_or_app. right. right. auto. }
        apply in_map_iff in Hin. destruct Hin as [y [Hy _]]. discriminate.
      - apply Hq1. rewrite Eq. apply in_or_app. right. right. auto. }
  2:{ intros Hids. assert (HTn : Tc <> []) by (intros ->; apply Hids; reflexivity).
      apply Forall_forall. intros X HX ->. apply In_nth_error in HX. destruct HX as [j Hj].
      assert (j < List.length g2)%nat by (apply nth_error_Some; congruence).
      apply (Hne HTn (S m + j)%nat); [lia|]. rewrite E3, Eg.
      rewrite nth_error_app1 by (rewrite app_length; simpl; lia).
      rewrite nth_error_app2 by lia. replace (S m + j - List.length g1)%nat with (S j) by lia. auto. }
  2:{ apply Forall_forall. intros X HX. apply In_nth_error in HX. destruct HX as [j Hj].
      assert (j < List.length g2)%nat by (apply nth_error_Some; congruence).
      apply (Hu (S m + j)%nat). rewrite E3, Eg.
      rewrite nth_error_app1 by (rewrite app_length; simpl; lia).
      rewrite nth_error_app2 by lia. replace (S m + j - List.length g1)%nat with (S j) by lia. auto. }
  destruct (climb (rev g2) (map rpid Tc)) as [l|]; [|reflexivity].
  cbn [opt_key bind app fold_res].
  assert (Estop : rp_step e pv (mkRP true (Some l)) (List.length f1, e, pm, Dm)
                  = Ok (mkRP false (Some l))).
  { unfold rp_step. cbn [rp_collect rp_last]. rewrite String.eqb_refl. cbn [bind].
    destruct pm as [pmv|]; auto.
    assert (E : String.eqb pmv pv = false).
    { apply String.eqb_neq. intros ->. apply (Hq1 (Some pv)); auto.
      rewrite Eq. apply in_or_app; right; left; auto. }
    rewrite E. reflexivity. }
  rewrite Estop. cbn [bind].
  rewrite rp_idle; [reflexivity| |lia|lia].
  intros x Hx. apply Hq1. rewrite Eq. apply in_or_app; auto. }
  assert (HC := climb_ancestor ds (S c) Tc (c - m) m (rev g2) (map rpid Tc) Hu).
  specialize (HC ltac:(lia)). rewrite rev_length in HC. specialize (HC Lg2).
  rewrite map_length in HC.
  assert (Hidx : forall j X, nth_error (rev g2) j = Some X -> nth_error ds (m + (c - m) - j) = Some X).
  { intros j X HX. assert (Hj : (j < List.length (rev g2))%nat) by (apply nth_error_Some; congruence).
    rewrite rev_length in Hj. rewrite nth_error_rev in HX by auto.
    rewrite E3, Eg. rewrite nth_error_app1 by (rewrite app_length; simpl; lia).
    rewrite nth_error_app2 by lia.
    replace (m + (c - m) - j - List.length g1)%nat with (S (List.length g2 - 1 - j)) by lia. auto. }
  specialize (HC Hidx eq_refl).
  assert (Hstart : forall k r i, nth_error Tc k = Some r -> nth_error (map rpid Tc) k = Some i ->
    ancestor ds (S c) r (m + (c - m)) i).
  { intros k r i Hk Hk'. rewrite nth_error_map, Hk in Hk'. simpl in Hk'. inversion Hk' as [Ei].
    replace (m + (c - m))%nat with c by lia. constructor. }
  specialize (HC Hstart).
  destruct (climb (rev g2) (map rpid Tc)) as [l|].
  - left. exists l. rewrite HE. split; [reflexivity|exact HC].
  - right. rewrite HE. split; [reflexivity|exact HC].
Qed.

(** * check_parent_child *)
(** What is reported for the pair of adjacent levels [A] above [B]. *)
Definition pair_stats (A B : table) : stats * stats :=
  let e := zunique (map rid A) in let p := zunique (map rpid B) in
  let c := zset_inter e p in
  ((List.length e, List.length (zset_diff e c), zset_diff e c),
   (List.length p, List.length (zset_diff p c), zset_diff p c)).

Fixpoint cp_spec (prev : string * table) (es : list string) (ps : list (option string)) (Ts : list table)
  : list (string * stats) * list (string * stats) :=
  match es, ps, Ts with
  | e :: es', Some p :: ps', T :: Ts' =>
      let '(a, b) := cp_spec (e, T) es' ps' Ts' in
      ((fst prev, fst (pair_stats (snd prev) T)) :: a, (p, snd (pair_stats (snd prev) T)) :: b)
  | _, _, _ => ([], [])
  end.

Lemma cp_fold : forall es ps (Ts : list table) k pe PT ent par,
  (forall p, In p ps -> p <> None) ->
  List.length es = List.length ps -> List.length es = List.length Ts ->
  (Ts <> [] -> PT <> []) -> Forall (fun T => T <> []) Ts ->
  exists prev,
  fold_res cp_step (levels_from k es ps Ts) (mkCP (Some (pe, PT)) ent par)
  = Ok (mkCP prev (ent ++ fst (cp_spec (pe, PT) es ps Ts)) (par ++ snd (cp_spec (pe, PT) es ps Ts))).
Proof.
  induction es as [|e es IH]; intros ps Ts k pe PT ent par Hp L1 L2 HPT HT.
  - simpl. rewrite !app_nil_r. eauto.
  - destruct ps as [|p ps]; [discriminate|]. destruct Ts as [|T Ts]; [discriminate|].
    destruct p as [pv|]; [|exfalso; apply (Hp None); [left; auto|auto]].
    inversion HT; subst. cbn [levels_from fold_res]. unfold cp_step at 1. cbn [cp_prev cp_entity cp_parent].
    unfold parent_groups, entity_groups.
    rewrite (grouper_ok _ rpid T) by auto. cbn [bind].
    rewrite (grouper_ok _ rid PT) by (apply HPT; congruence). cbn [bind].
    match goal with |- context [mkCP (Some (e, T)) ?x ?y] =>
      destruct (IH ps Ts (S k) e T x y) as [prev Hf]; auto end.
    { intros q Hq. apply Hp. right; auto. }
    exists prev. rewrite Hf. cbn [cp_spec]. destruct (cp_spec (e, T) es ps Ts) as [a b].
    cbn [fst snd]. rewrite <- !app_assoc. reflexivity.
Qed.

Lemma cp_spec_nth : forall es pvs (Ts : list table) pe PT j X Y ex pv,
  List.length es = List.length pvs -> List.length es = List.length Ts ->
  nth_error (pe :: es) j = Some ex -> nth_error pvs j = Some pv ->
  nth_error (PT :: Ts) j = Some X -> nth_error Ts j = Some Y ->
  nth_error (fst (cp_spec (pe, PT) es (map Some pvs) Ts)) j = Some (ex, fst (pair_stats X Y)) /\
  nth_error (snd (cp_spec (pe, PT) es (map Some pvs) Ts)) j = Some (pv, snd (pair_stats X Y)).
Proof.
  induction es as [|e es IH]; intros pvs Ts pe PT j X Y ex pv L1 L2 He Hp HX HY.
  - destruct Ts; [|discriminate]. destruct j; discriminate.
  - destruct pvs as [|q pvs]; [discriminate|]. destruct Ts as [|T Ts]; [discriminate|].
    cbn [map cp_spec]. destruct (cp_spec (e, T) es (map Some pvs) Ts) as [a b] eqn:E.
    destruct j.
    + simpl in *. inversion He; inversion Hp; inversion HX; inversion HY; subst. auto.
    + cbn [nth_error fst snd] in *.
      specialize (IH pvs Ts e T j X Y ex pv). rewrite E in IH. apply IH; auto.
Qed.

Lemma cp_spec_length : forall es pvs (Ts : list table) prev,
  List.length es = List.length pvs -> List.length es = List.length Ts ->
  List.length (fst (cp_spec prev es (map Some pvs) Ts)) = List.length es /\
  List.length (snd (cp_spec prev es (map Some pvs) Ts)) = List.length es.
Proof.
  induction es as [|e es IH]; intros pvs Ts prev L1 L2; [simpl; auto|].
  destruct pvs as [|q pvs]; [discriminate|]. destruct Ts as [|T Ts]; [discriminate|].
  cbn [map cp_spec]. specialize (IH pvs Ts (e, T)).
  destruct (cp_spec (e, T) es (map Some pvs) Ts) as [a b]. simpl in *.
  destruct IH; auto.
Qed.

Lemma check_refines : forall (ds : list table) evars pvars tv,
  trav_init ds evars pvars = Ok tv -> Forall (fun T => T <> []) ds ->
  exists e0 es T0 Ts, evars = e0 :: es /\ ds = T0 :: Ts /\
    List.length es = List.length pvars /\ List.length es = List.length Ts /\
    check_parent_child tv = Ok (cp_spec (e0, T0) es (map Some pvars) Ts).
Proof.
  intros ds evars pvars tv Hi Hne. apply init_inv in Hi. destruct Hi as [-> [L1 L2]].
  destruct evars as [|e0 es]; [discriminate|]. destruct ds as [|T0 Ts]; [discriminate|].
  simpl in L1, L2. exists e0, es, T0, Ts. repeat split; auto; try lia.
  unfold check_parent_child, descend. cbn [tv_evars tv_pvars tv_data levels_from fold_res].
  unfold cp_step at 1. cbn [bind cp_entity cp_parent].
  inversion Hne; subst.
  destruct (cp_fold es (map Some pvars) Ts 1 e0 T0 [] []) as [prev Hf]; auto.
  { intros p Hp ->. apply in_map_iff in Hp. destruct Hp as [x [Hx _]]. discriminate. }
  { rewrite map_length. lia. }
  { lia. }
  rewrite Hf. cbn [bind cp_entity cp_parent app].
  destruct (cp_spec (e0, T0) es (map Some pvars) Ts); reflexivity.
Qed.

Lemma cp_empty : forall es pvs (Ts : list table) k pe PT ent par,
  List.length es = List.length pvs -> List.length es = List.length Ts ->
  Ts <> [] -> In [] (PT :: Ts) ->
  fold_res cp_step (levels_from k es (map Some pvs) Ts) (mkCP (Some (pe, PT)) ent par)
  = Err AttributeError.
Proof.
  induction es as [|e es IH]; intros pvs Ts k pe PT ent par L1 L2 Hne Hin.
  - destruct Ts; [congruence|discriminate].
  - destruct pvs as [|p pvs]; [discriminate|]. destruct Ts as [|T Ts]; [discriminate|].
    cbn [map levels_from fold_res]. unfold cp_step at 1. cbn [cp_prev cp_entity cp_parent].
    unfold parent_groups, entity_groups. destruct T as [|t T0]; [reflexivity|].
    set (T := t :: T0) in *. assert (HT : T <> []) by (subst T; congruence).
    rewrite (grouper_ok _ rpid T) by auto. cbn [bind].
    destruct PT as [|q PT0]; [reflexivity|]. rewrite (grouper_ok _ rid (q :: PT0)) by congruence. cbn [bind].
    destruct Hin as [Hin|[Hin|Hin]]; [discriminate|congruence|].
    apply IH; auto; [destruct Ts; [destruct Hin|congruence]|right; auto].
Qed.

Theorem check_empty : forall (ds : list table) evars pvars tv,
  trav_init ds evars pvars = Ok tv -> pvars <> [] -> In [] ds ->
  check_parent_child tv = Err AttributeError.
Proof.
  intros ds evars pvars tv Hi Hne Hin. apply init_inv in Hi. destruct Hi as [-> [L1 L2]].
  destruct evars as [|e0 es]; [discriminate|]. destruct ds as [|T0 Ts]; [discriminate|].
  simpl in L1, L2. unfold check_parent_child, descend.
  cbn [tv_evars tv_pvars tv_data levels_from fold_res].
  unfold cp_step at 1. cbn [bind cp_entity cp_parent].
  rewrite cp_empty; auto; try lia.
  destruct pvars; [congruence|]. simpl in L1. destruct Ts; [simpl in L2; lia|congruence].
Qed.
End Proofs.
