(** Lemmas about calls of grid_GLM_flashes, continued: dictionaries in a history of calls,
    and what is left when a call raises. *)
From Coq Require Import List ZArith QArith Bool String Lia.
From Verif Require Import Base BaseProofs Glm Lut FileName Imagery ImageryProofs Aggregate Output OutputProofs OutputProofs2 Tiles TilesProofs Gridder Calls CallsSpec CallsProofs CallsProofs2 CallsProofs3.
Import ListNotations.
Open Scope string_scope.
Open Scope list_scope.

Lemma grid_no : forall kw k, In k (process_keys ++ output_keys) -> kget k (grid_args kw) = None.
Proof.
  intros kw k I. unfold grid_args. rewrite (proj1 (move_get output_keys (mid_args kw) [] k output_nodup)). destruct (existsb (String.eqb k) output_keys) eqn:E; [reflexivity|].
  apply in_app_or in I. destruct I as [I|I].
  - assert (X : kget k (fst (move process_keys (start_args kw) [])) = None).
    { rewrite (proj1 (move_get process_keys (start_args kw) [] k process_nodup)). assert (Y : existsb (String.eqb k) process_keys = true) by (apply existsb_exists; exists k; split; [auto|apply String.eqb_refl]). rewrite Y. reflexivity. }
    unfold mid_args. destruct (khas _ _); [|exact X]. rewrite kget_kset, X. cbn in I. destruct I as [<-|[<-|[<-|[<-|[<-|[<-|[<-|[]]]]]]]]; reflexivity.
  - assert (Y : existsb (String.eqb k) output_keys = true) by (apply existsb_exists; exists k; split; [auto|apply String.eqb_refl]). congruence.
Qed.
(** The arguments of the tiles. *)
Lemma subgrids_args : forall kw sgs sg, subgrids kw = Ok sgs -> In sg sgs ->
  (forall k, In k ["clip_events"; "output_writer"; "output_writer_3d"] -> kget k (sg_kw sg) = None) /\
  (forall k, In k ["output_writer"; "output_writer_3d"] -> kget k (sg_proc sg) = None) /\
  (forall k, In k ["output_kwargs"; "outpath"] -> kget k (sg_out sg) = kget k kw) /\
  (khas "fixed_grid" kw = false -> sg_pre sg = None).
Proof.
  intros kw sgs sg H I. rewrite subgrids_eq in H. destruct (need "proj_name" (grid_args kw)) as [proj|]; cbn [bind] in H; [|discriminate].
  assert (G : forall k, In k ["clip_events"; "output_writer"; "output_writer_3d"] -> kget k (grid_args kw) = None) by (intros k J; apply grid_no; cbn in *; tauto).
  assert (P : forall k, In k ["output_writer"; "output_writer_3d"] -> kget k (proc_args kw) = None) by (intros k J; rewrite proc_get; cbn in J; destruct J as [<-|[<-|[]]]; reflexivity).
  assert (O : forall k, In k ["output_kwargs"; "outpath"] -> kget k (out_args kw) = kget k kw) by (intros k J; rewrite out_get; cbn in J; destruct J as [<-|[<-|[]]]; reflexivity).
  assert (ONE : forall v v', (forall k, In k ["output_writer"; "output_writer_3d"] -> kget k (kset "lat_bnd" v (kset "lon_bnd" v' (proc_args kw))) = None)).
  { intros v v' k J. rewrite !kget_kset. rewrite (P k J). cbn in J. destruct J as [<-|[<-|[]]]; reflexivity. }
  destruct (is_lonlat proj); [|destruct (khas "fixed_grid" (proc_args kw)) eqn:EF].
  - destruct (need "x_bnd" _); cbn [bind] in H; [|discriminate]. destruct (need "y_bnd" _); cbn [bind] in H; [|discriminate]. inversion H; subst. destruct I as [<-|[]]. cbn. repeat split; auto.
  - destruct (natural _) as [s|]; cbn [bind] in H; [|discriminate]. apply fixed_inv in H. destruct H as (dx & dy & xb & yb & ts & _ & _ & _ & _ & _ & _ & _ & _ & prefix & writer & _ & _ & ->).
    apply in_map_iff in I. destruct I as (t & <- & _). cbn [tile_sub sg_kw sg_proc sg_out sg_pre]. unfold tile_bounds. split; [|split; [|split]].
    + intros k J. rewrite !kget_kset, (G k J). cbn in J. destruct J as [<-|[<-|[<-|[]]]]; reflexivity.
    + intros k J. rewrite !kget_kset, (P k J). cbn in J. destruct J as [<-|[<-|[]]]; reflexivity.
    + intros k J. rewrite !kget_kset, <- (O k J). cbn in J. destruct J as [<-|[<-|[]]]; reflexivity.
    + intros X. unfold khas in EF, X. rewrite proc_get in EF. cbn in EF. congruence.
  - inversion H; subst. destruct I as [<-|[]]. cbn. repeat split; auto.
Qed.

(** * Dictionaries *)
Lemma dget_del : forall k k' d, dict_get k (dict_del k' d) = if String.eqb k k' then None else dict_get k d.
Proof.
  intros k k' d. unfold dict_get, dict_del. induction d as [|[a b] d IH]; cbn; [destruct (String.eqb k k'); auto|].
  destruct (String.eqb a k') eqn:E; cbn.
  - rewrite IH. apply String.eqb_eq in E. subst a. destruct (String.eqb k k') eqn:E2; [reflexivity|]. rewrite String.eqb_sym, E2. reflexivity.
  - destruct (String.eqb a k) eqn:E3; [|exact IH]. apply String.eqb_eq in E3. subst a. rewrite E. reflexivity.
Qed.
Lemma dget_set : forall k k' v d, dict_get k (dict_set k' v d) = if String.eqb k k' then Some v else dict_get k d.
Proof.
  intros k k' v d. unfold dict_set. unfold dict_get at 1. rewrite find_app'. pose proof (dget_del k k' d) as H. unfold dict_get at 1 in H. destruct (find _ (dict_del k' d)) as [p|] eqn:F.
  - destruct (String.eqb k k'); [discriminate|]. exact H.
  - cbn. rewrite String.eqb_sym. destruct (String.eqb k k') eqn:E; [reflexivity|]. exact H.
Qed.
(** What a call of write_grids, of a tile, does to the dictionaries. *)
Definition left_of (d : dict) (d' : dict) : Prop :=
  dict_get "pad" d' = None /\ dict_get "scale_and_offset" d' = None /\ forall k, k <> "pad" -> k <> "scale_and_offset" -> dict_get k d' = dict_get k d.
Lemma popped : forall d, left_of d (dict_del "scale_and_offset" (dict_del "pad" d)).
Proof.
  intros d. unfold left_of. rewrite !dget_del. cbn [String.eqb Ascii.eqb Bool.eqb]. split; [reflexivity|]. split; [reflexivity|]. intros k A B. rewrite !dget_del. apply String.eqb_neq in A, B. rewrite A, B. reflexivity.
Qed.
Definition out_ref (out : kwargs) (r : ref) : Prop := match kget "output_kwargs" out with None => r = Default | Some v => v = KDict r end.

Section P.
Variable prepare : kwargs -> kval -> kwargs -> res prepared.
Variables (sc : scenes) (resolutions : list (string * Q)) (stamp : Q -> datetime).
Let wg := write_grids sc resolutions stamp.
Let one := proc_each_grid prepare sc resolutions stamp.
Let all := proc_all prepare sc resolutions stamp.

Lemma write_grids_heap : forall nows p out st st' r, wg nows p out st = (st', r) ->
  (st_heap st' = st_heap st /\ (exists e, r = Err e) /\ forall q, ~ out_ref out q) \/
  exists q, out_ref out q /\ st_heap st' = store q (dict_del "scale_and_offset" (dict_del "pad" (st_heap st q))) (st_heap st).
Proof.
  intros nows p out st st' r H. unfold wg, write_grids, and_then, pure in H. cbn [fst snd] in H. unfold out_ref.
  destruct (kget "output_kwargs" out) as [v|] eqn:E.
  - destruct v as [| | | | | |q| | | |]; try (left; inversion H; subst; split; [reflexivity|]; split; [eexists; reflexivity|]; intros q' X; discriminate X).
    right. exists q. split; [reflexivity|]. cbn [fst snd] in H.
    match type of H with context [match ?m with Ok _ => _ | Err _ => _ end] => destruct m as [sl|]; cbn [fst snd] in H; [|inversion H; reflexivity] end.
    destruct (Nat.leb _ 1); [inversion H; reflexivity|]. destruct (pr_attrs p); cbn [fst snd] in H; [|inversion H; reflexivity].
    match type of H with context [match ?m with Ok _ => _ | Err _ => _ end] => destruct m as [op|]; cbn [fst snd] in H; inversion H; reflexivity end.
  - right. exists Default. split; [reflexivity|]. cbn [fst snd] in H.
    match type of H with context [match ?m with Ok _ => _ | Err _ => _ end] => destruct m as [sl|]; cbn [fst snd] in H; [|inversion H; reflexivity] end.
    destruct (Nat.leb _ 1); [inversion H; reflexivity|]. destruct (pr_attrs p); cbn [fst snd] in H; [|inversion H; reflexivity].
    match type of H with context [match ?m with Ok _ => _ | Err _ => _ end] => destruct m as [op|]; cbn [fst snd] in H; inversion H; reflexivity end.
Qed.
(** The default of write_grids stays empty. *)
Lemma one_fresh : forall nows sg st st' r, one nows sg st = (st', r) -> fresh st -> (forall q, kget "output_kwargs" (sg_out sg) = Some (KDict q) -> q = Caller) -> fresh st'.
Proof.
  intros nows sg st st' r H FR Q. unfold one, proc_each_grid, and_then, pure in H. cbn [fst snd] in H.
  destruct (need "ellipse_rev" _) as [er|]; cbn [fst snd] in H; [|inversion H; subst; exact FR].
  destruct (pipeline_setup _) as [fd|]; cbn [fst snd] in H; [|inversion H; subst; exact FR].
  match type of H with context [prepare ?a ?b ?c] => destruct (prepare a b c) as [p|] eqn:EP end; cbn [fst snd] in H; [|inversion H; subst; exact FR].
  destruct (sg_pre sg) as [[[npx npy] w]|].
  - destruct (if khas "output_kwargs" (sg_out sg) then _ else _) as [out st0] eqn:EO.
    assert (X : fresh st0 /\ forall q, kget "output_kwargs" out = Some (KDict q) -> q <> Default).
    { unfold khas in EO. destruct (kget "output_kwargs" (sg_out sg)) as [v|] eqn:EV; inversion EO; subst.
      - split; [exact FR|]. intros q E. rewrite EV in E. rewrite (Q q E). discriminate.
      - split; [unfold fresh in *; cbn; exact FR|]. intros q E. rewrite kget_kset in E. cbn in E. inversion E. discriminate. }
    destruct X as [FR0 ND]. destruct (kget "output_kwargs" out) as [v|] eqn:EV; [|inversion H; subst; exact FR0]. destruct v as [| | | | | |q| | | |]; cbn [fst snd] in H; try (inversion H; subst; exact FR0).
    match type of H with context [write_grids ?a ?b ?c ?d ?e ?f ?g] => destruct (write_grids a b c d e f g) as [s2 r2] eqn:W end.
    assert (F2 : fresh s2).
    { apply write_grids_heap in W. assert (ND' := ND q eq_refl). unfold fresh. destruct W as [(-> & _)|(q' & OR & ->)].
      - cbn [st_heap]. unfold store. destruct q; try congruence; exact FR0.
      - unfold out_ref in OR. rewrite EV in OR. inversion OR; subst q'. unfold store. cbn [st_heap]. destruct q; try congruence; exact FR0. }
    cbn [fst snd] in H. destruct r2; inversion H; subst; exact F2.
  - match type of H with context [write_grids ?a ?b ?c ?d ?e ?f ?g] => destruct (write_grids a b c d e f g) as [s2 r2] eqn:W end.
    assert (F2 : fresh s2).
    { apply write_grids_heap in W. unfold fresh in *. destruct W as [(-> & _)|(q & OR & ->)]; [exact FR|]. unfold store, out_ref in *. destruct (kget "output_kwargs" (sg_out sg)) as [v|].
      - subst v. rewrite (Q q eq_refl). cbn. exact FR.
      - subst q. cbn. rewrite FR. reflexivity. }
    cbn [fst snd] in H. destruct r2; inversion H; subst; exact F2.
Qed.
Lemma all_fresh : forall clock sgs st st' r, all clock sgs st = (st', r) -> fresh st -> (forall sg q, In sg sgs -> kget "output_kwargs" (sg_out sg) = Some (KDict q) -> q = Caller) -> fresh st'.
Proof.
  intros clock. induction sgs as [|sg sgs IH]; intros st st' r H FR Q; [inversion H; subst; exact FR|].
  unfold all in H. cbn [proc_all] in H. fold all in H. unfold and_then in H. destruct (proc_each_grid _ _ _ _ _ sg st) as [st1 r1] eqn:E1. assert (F1 : fresh st1) by (eapply one_fresh; [exact E1|exact FR|intros q; apply Q; left; reflexivity]).
  cbn [fst snd] in H. destruct r1 as [o|e]; [|inversion H; subst; exact F1]. change (proc_all prepare sc resolutions stamp clock sgs st1) with (all clock sgs st1) in H.
  destruct (all clock sgs st1) as [st2 r2] eqn:E2. assert (F2 : fresh st2) by (eapply IH; [exact E2|exact F1|intros sg' q I; apply Q; right; exact I]). cbn [fst snd] in H. destruct r2; inversion H; subst; exact F2.
Qed.
Lemma call_fresh : forall clock kw st st' r, grid_GLM_flashes prepare sc resolutions stamp clock kw st = (st', r) -> from_outside kw -> fresh st -> fresh st'.
Proof.
  intros clock kw st st' r H FO FR. unfold grid_GLM_flashes, and_then, pure in H. cbn [fst snd] in H. destruct (subgrids kw) as [sgs|] eqn:E; [|inversion H; subst; exact FR].
  eapply all_fresh; [exact H|exact FR|]. intros sg q I K. destruct (subgrids_args kw sgs sg E I) as (_ & _ & O & _). rewrite O in K by (cbn; tauto). apply kget_in in K. exact (FO _ _ K).
Qed.

(** Without output_kwargs only the files of the state matter. *)
Lemma write_grids_same : forall nows p out st st2 r, st_fs st = st_fs st2 -> out_ref out r -> st_heap st r = st_heap st2 r ->
  snd (wg nows p out st) = snd (wg nows p out st2) /\ st_fs (fst (wg nows p out st)) = st_fs (fst (wg nows p out st2)).
Proof.
  intros nows p out st st2 r F O Hh. unfold wg, write_grids, and_then, pure. cbn [fst snd].
  assert (E : match kget "output_kwargs" out with None => Ok Default | Some (KDict r) => Ok r | Some _ => Err AttributeError end = Ok r).
  { unfold out_ref in O. destruct (kget "output_kwargs" out); subst; reflexivity. }
  rewrite E. cbn [fst snd]. rewrite <- Hh.
  match goal with |- context [match ?m with Ok _ => _ | Err _ => _ end] => destruct m as [sl|]; cbn [fst snd]; [|split; [reflexivity|exact F]] end.
  destruct (Nat.leb _ 1); [split; [reflexivity|exact F]|]. destruct (pr_attrs p); cbn [fst snd]; [|split; [reflexivity|exact F]].
  match goal with |- context [match ?m with Ok _ => _ | Err _ => _ end] => destruct m as [op|]; cbn [fst snd]; [|split; [reflexivity|exact F]] end. cbn [st_fs]. rewrite F. split; reflexivity.
Qed.
Lemma one_same : forall nows sg st st2, st_fs st = st_fs st2 -> fresh st -> fresh st2 -> kget "output_kwargs" (sg_out sg) = None ->
  snd (one nows sg st) = snd (one nows sg st2) /\ st_fs (fst (one nows sg st)) = st_fs (fst (one nows sg st2)).
Proof.
  intros nows sg st st2 F FR FR2 N. unfold one, proc_each_grid, and_then, pure. cbn [fst snd].
  destruct (need "ellipse_rev" _) as [er|]; cbn [fst snd]; [|split; [reflexivity|exact F]].
  destruct (pipeline_setup _) as [fd|]; cbn [fst snd]; [|split; [reflexivity|exact F]].
  match goal with |- context [prepare ?a ?b ?c] => destruct (prepare a b c) as [p|] end; cbn [fst snd]; [|split; [reflexivity|exact F]].
  unfold khas. rewrite N. destruct (sg_pre sg) as [[[npx npy] w]|].
  - rewrite kget_kset. cbn [String.eqb Ascii.eqb Bool.eqb fst snd].
    match goal with |- context [write_grids _ _ _ _ _ ?o ?s] => match s with context [st_heap st] => match goal with |- context [write_grids _ _ _ _ _ o ?s'] => match s' with context [st_heap st2] => destruct (write_grids_same nows p o s s' Fresh) as [A B] end end end end.
    + cbn [st_fs]. exact F.
    + unfold out_ref. rewrite kget_kset. reflexivity.
    + cbn [st_heap]. unfold store. reflexivity.
    + unfold wg in A, B. repeat match goal with |- context [write_grids ?a ?b ?c ?d ?e ?f ?g] => destruct (write_grids a b c d e f g) as [? ?] end. cbn [fst snd] in *. subst. match goal with |- context [match ?r with Ok _ => _ | Err _ => _ end] => destruct r end; cbn [fst snd]; auto.
  - destruct (write_grids_same nows p (sg_out sg) st st2 Default F) as [A B].
    + unfold out_ref. rewrite N. reflexivity.
    + unfold fresh in *. congruence.
    + unfold wg in A, B. repeat match goal with |- context [write_grids ?a ?b ?c ?d ?e ?f ?g] => destruct (write_grids a b c d e f g) as [? ?] end. cbn [fst snd] in *. subst. match goal with |- context [match ?r with Ok _ => _ | Err _ => _ end] => destruct r end; cbn [fst snd]; auto.
Qed.
Lemma all_same : forall clock sgs st st2, st_fs st = st_fs st2 -> fresh st -> fresh st2 -> (forall sg, In sg sgs -> kget "output_kwargs" (sg_out sg) = None) ->
  snd (all clock sgs st) = snd (all clock sgs st2) /\ st_fs (fst (all clock sgs st)) = st_fs (fst (all clock sgs st2)).
Proof.
  intros clock. induction sgs as [|sg sgs IH]; intros st st2 F FR FR2 N; [split; [reflexivity|exact F]|].
  unfold all. cbn [proc_all]. unfold and_then.
  destruct (one_same (clock (sg_ij sg)) sg st st2 F FR FR2 (N sg (or_introl eq_refl))) as [A B]. unfold one in A, B.
  destruct (proc_each_grid _ _ _ _ _ sg st) as [s1 r1] eqn:E1. destruct (proc_each_grid _ _ _ _ _ sg st2) as [s2 r2] eqn:E2. cbn [fst snd] in *. subst r2.
  assert (F1 : fresh s1) by (eapply one_fresh; [exact E1|exact FR|intros q X; rewrite (N sg (or_introl eq_refl)) in X; discriminate]).
  assert (F2 : fresh s2) by (eapply one_fresh; [exact E2|exact FR2|intros q X; rewrite (N sg (or_introl eq_refl)) in X; discriminate]).
  destruct r1 as [o|e]; cbn [fst snd]; [|split; [reflexivity|exact B]].
  destruct (IH s1 s2 B F1 F2) as [C D]; [intros; apply N; right; auto|]. unfold all in C, D. repeat match goal with |- context [proc_all ?a ?b ?c ?d ?e ?f ?g] => destruct (proc_all a b c d e f g) as [? ?] end. cbn [fst snd] in *. subst. match goal with |- context [match ?r with Ok _ => _ | Err _ => _ end] => destruct r end; cbn [fst snd]; auto.
Qed.

(** With the caller's dictionary: the options are gone afterwards. *)
Lemma left_trans : forall d d' d'', left_of d d' -> left_of d' d'' -> left_of d d''.
Proof. intros d d' d'' (A & B & C) (A' & B' & C'). split; [auto|]. split; [auto|]. intros k N1 N2. rewrite C', C; auto. Qed.
Lemma one_left : forall nows sg st st' o, one nows sg st = (st', Ok o) -> kget "output_kwargs" (sg_out sg) = Some (KDict Caller) -> left_of (st_heap st Caller) (st_heap st' Caller).
Proof.
  intros nows sg st st' o H K. unfold one, proc_each_grid, and_then, pure in H. cbn [fst snd] in H.
  destruct (need "ellipse_rev" _) as [er|]; cbn [fst snd] in H; [|inversion H].
  destruct (pipeline_setup _) as [fd|]; cbn [fst snd] in H; [|inversion H].
  match type of H with context [prepare ?a ?b ?c] => destruct (prepare a b c) as [p|] eqn:EP end; cbn [fst snd] in H; [|inversion H].
  unfold khas in H. rewrite K in H. destruct (sg_pre sg) as [[[npx npy] w]|].
  - rewrite K in H. cbn [fst snd] in H.
    match type of H with context [write_grids ?a ?b ?c ?d ?e ?f ?g] => destruct (write_grids a b c d e f g) as [s2 [nm|]] eqn:W end; cbn [fst snd] in H; [|inversion H]. inversion H; subst s2.
    apply write_grids_heap in W. destruct W as [(_ & (e & X) & _)|(q & OR & E)]; [discriminate X|]. unfold out_ref in OR. rewrite K in OR. inversion OR; subst q. rewrite E. cbn [st_heap]. unfold store at 1. cbn [ref_eqb].
    unfold store at 1. cbn [ref_eqb]. unfold left_of. rewrite !dget_del. cbn [String.eqb Ascii.eqb Bool.eqb]. split; [reflexivity|]. split; [reflexivity|]. intros k A B. rewrite !dget_del, dget_set. apply String.eqb_neq in A, B. rewrite A, B. reflexivity.
  - match type of H with context [write_grids ?a ?b ?c ?d ?e ?f ?g] => destruct (write_grids a b c d e f g) as [s2 [nm|]] eqn:W end; cbn [fst snd] in H; [|inversion H]. inversion H; subst s2.
    apply write_grids_heap in W. destruct W as [(_ & (e & X) & _)|(q & OR & E)]; [discriminate X|]. unfold out_ref in OR. rewrite K in OR. inversion OR; subst q. rewrite E. unfold store. cbn [ref_eqb]. apply popped.
Qed.
Lemma all_left : forall clock sgs st st' out, all clock sgs st = (st', Ok out) -> sgs <> [] -> (forall sg, In sg sgs -> kget "output_kwargs" (sg_out sg) = Some (KDict Caller)) -> left_of (st_heap st Caller) (st_heap st' Caller).
Proof.
  intros clock. induction sgs as [|sg sgs IH]; intros st st' out H NE K; [congruence|]. apply all_ok_step in H. destruct H as (st1 & o & out' & E1 & E2 & ->).
  pose proof (one_left _ _ _ _ _ E1 (K sg (or_introl eq_refl))) as L1. destruct sgs as [|sg' sgs]; [inversion E2; subst; exact L1|].
  eapply left_trans; [exact L1|]. eapply IH; [exact E2|discriminate|intros; apply K; right; auto].
Qed.

(** * Exceptions *)
Lemma write_first : forall m gd xs ys scaled slot instrument outpath nows grids fs,
  write_imagery (first_frames m gd) xs ys scaled sc resolutions slot instrument outpath stamp nows grids fs =
  write_loop gd xs ys scaled sc resolutions slot instrument outpath stamp nows grids fs 0 (firstn (S m) (gd_tedges gd)).
Proof.
  intros. unfold write_imagery. cbn [first_frames gd_tedges]. generalize (firstn (S m) (gd_tedges gd)) as edges. generalize 0%nat as t. intros t edges. revert grids fs t.
  induction edges as [|t0 edges IH]; intros grids fs t; [reflexivity|]. destruct edges as [|t1 edges]; [reflexivity|]. rewrite !loop_step.
  assert (O : forall now, write_one (first_frames m gd) xs ys scaled sc resolutions slot instrument outpath stamp now grids fs t t0 t1 = write_one gd xs ys scaled sc resolutions slot instrument outpath stamp now grids fs t t0 t1) by reflexivity.
  rewrite O. destruct (write_one gd xs ys scaled sc resolutions slot instrument outpath stamp (nows t) grids fs t t0 t1) as [so|]; cbn [bind]; [|reflexivity]. rewrite IH. reflexivity.
Qed.
Lemma write_grids_whole : forall nows p out st st' r, wg nows p out st = (st', r) ->
  exists xs ys scaled slot instrument outpath m g fs2 paths, (m <= List.length (gd_tedges (pr_gd p)) - 1)%nat /\ ((exists names, r = Ok names) -> m = (List.length (gd_tedges (pr_gd p)) - 1)%nat) /\
    write_imagery (first_frames m (pr_gd p)) xs ys scaled sc resolutions slot instrument outpath stamp nows (pr_grids p) (st_fs st) = Ok (g, fs2, paths) /\
    fs_files (st_fs st') = fs_files fs2 /\ (exists l, fs_dirs (st_fs st') = l ++ fs_dirs (st_fs st)) /\ ((0 < m)%nat -> pr_attrs p = Some (slot, instrument)).
Proof.
  intros nows p out st st' r H.
  assert (NONE : forall e, st_fs st' = st_fs st -> r = Err e -> exists xs ys scaled slot instrument outpath m g fs2 paths, (m <= List.length (gd_tedges (pr_gd p)) - 1)%nat /\ ((exists names, r = Ok names) -> m = (List.length (gd_tedges (pr_gd p)) - 1)%nat) /\
    write_imagery (first_frames m (pr_gd p)) xs ys scaled sc resolutions slot instrument outpath stamp nows (pr_grids p) (st_fs st) = Ok (g, fs2, paths) /\ fs_files (st_fs st') = fs_files fs2 /\ (exists l, fs_dirs (st_fs st') = l ++ fs_dirs (st_fs st)) /\ ((0 < m)%nat -> pr_attrs p = Some (slot, instrument))).
  { intros e F ->. exists slice_all, slice_all, true, [], [], [], 0%nat, (pr_grids p), (st_fs st), []. split; [lia|]. split; [intros (n & X); discriminate|]. rewrite F. split; [|split; [reflexivity|split; [exists []; reflexivity|intros X; lia]]].
    rewrite write_first. destruct (gd_tedges (pr_gd p)) as [|t0 [|t1 l]]; reflexivity. }
  unfold wg, write_grids, and_then, pure in H. cbn [fst snd] in H.
  destruct (match kget "output_kwargs" out with None => Ok Default | Some (KDict r) => Ok r | Some _ => Err AttributeError end) as [q|]; cbn [fst snd] in H; [|inversion H; subst; eapply NONE; reflexivity].
  match type of H with context [match ?m with Ok _ => _ | Err _ => _ end] => destruct m as [sl|]; cbn [fst snd] in H; [|inversion H; subst; eapply NONE; reflexivity] end.
  destruct (Nat.leb _ 1) eqn:LE.
  { inversion H; subst. apply Nat.leb_le in LE. cbn [st_fs]. exists slice_all, slice_all, true, [], [], [], 0%nat, (pr_grids p), (st_fs st), []. split; [lia|]. split; [intros _; lia|]. split; [|split; [reflexivity|split; [exists []; reflexivity|intros X; lia]]].
    rewrite write_first. destruct (gd_tedges (pr_gd p)) as [|t0 [|t1 l]]; reflexivity. }
  destruct (pr_attrs p) as [si|]; cbn [fst snd] in H; [|inversion H; subst; eapply NONE; reflexivity].
  match type of H with context [match ?m with Ok _ => _ | Err _ => _ end] => destruct m as [op|]; cbn [fst snd] in H; [|inversion H; subst; eapply NONE; reflexivity] end.
  match type of H with context [write_frames_to ?a ?b ?c ?d ?e ?f ?g ?h ?i ?j ?k ?l ?m ?n ?o] => destruct (write_frames_to a b c d e f g h i j k l m n o) as [fs' r'] eqn:W; exists e, f, g, h, i, j end.
  cbn [fst snd st_fs st_heap] in H, W. inversion H; subst. cbn [st_fs]. destruct r as [names|e].
  - apply to_ok in W. destruct W as (g' & W). exists (List.length (gd_tedges (pr_gd p)) - 1)%nat, g', fs', names. split; [lia|]. split; [reflexivity|].
    rewrite write_first, firstn_all2 by lia. split; [exact W|]. split; [reflexivity|]. split; [|intros _; rewrite <- surjective_pairing; reflexivity]. apply loop_spec in W. destruct W as (files & _ & _ & _ & _ & _ & D). exact D.
  - apply to_err in W. destruct W as (m & g' & fsm & paths & Hm & L & F & (l & D)). exists m, g', fsm, paths. split; [lia|]. split; [intros (n & X); discriminate|]. rewrite write_first. split; [exact L|]. split; [exact F|]. split; [|intros _; rewrite <- surjective_pairing; reflexivity].
    apply loop_spec in L. destruct L as (files & _ & _ & _ & _ & _ & (l' & D')). exists (l ++ l'). rewrite D, D', app_assoc. reflexivity.
Qed.
Lemma one_whole : forall nows sg st st' r, one nows sg st = (st', r) -> 
  (st_fs st' = st_fs st /\ exists e, r = Err e) \/
  exists a er b p xs ys scaled slot instrument outpath m g fs2 paths, prepare a er b = Ok p /\ (m <= List.length (gd_tedges (pr_gd p)) - 1)%nat /\ ((exists o, r = Ok o) -> m = (List.length (gd_tedges (pr_gd p)) - 1)%nat) /\
    write_imagery (first_frames m (pr_gd p)) xs ys scaled sc resolutions slot instrument outpath stamp nows (pr_grids p) (st_fs st) = Ok (g, fs2, paths) /\
    fs_files (st_fs st') = fs_files fs2 /\ (exists l, fs_dirs (st_fs st') = l ++ fs_dirs (st_fs st)) /\ ((0 < m)%nat -> pr_attrs p = Some (slot, instrument)).
Proof.
  intros nows sg st st' r H. unfold one, proc_each_grid, and_then, pure in H. cbn [fst snd] in H.
  destruct (need "ellipse_rev" _) as [er|]; cbn [fst snd] in H; [|left; inversion H; subst; split; [reflexivity|eexists; reflexivity]].
  destruct (pipeline_setup _) as [fd|]; cbn [fst snd] in H; [|left; inversion H; subst; split; [reflexivity|eexists; reflexivity]].
  match type of H with context [prepare ?a ?b ?c] => remember c as b0 eqn:Hb0; destruct (prepare a b b0) as [p|] eqn:EP end; cbn [fst snd] in H; [|left; inversion H; subst; split; [reflexivity|eexists; reflexivity]].
  destruct (sg_pre sg) as [[[npx npy] w]|].
  - destruct (if khas "output_kwargs" (sg_out sg) then _ else _) as [out st0] eqn:EO. assert (FS : st_fs st0 = st_fs st) by (destruct (khas "output_kwargs" (sg_out sg)); inversion EO; reflexivity).
    match type of H with context [match ?m with Ok _ => _ | Err _ => _ end] => destruct m as [q|]; cbn [fst snd] in H; [|left; inversion H; subst; split; [exact FS|eexists; reflexivity]] end.
    match type of H with context [write_grids ?a ?b ?c ?d ?e ?f ?g] => destruct (write_grids a b c d e f g) as [s2 r2] eqn:W end. apply write_grids_whole in W. cbn [st_fs] in W. rewrite FS in W.
    destruct W as (xs & ys & scaled & slot & instrument & outpath & m & g & fs2 & paths & A & B & C & D & E & AT). right. exists (sg_kw sg), er, b0, p, xs, ys, scaled, slot, instrument, outpath, m, g, fs2, paths. cbn [fst snd] in H.
    split; [exact EP|]. split; [exact A|]. destruct r2 as [nm|e]; inversion H; subst; (split; [|auto]).
    + intros _. apply B. eexists. reflexivity.
    + intros (o & X). discriminate.
  - match type of H with context [write_grids ?a ?b ?c ?d ?e ?f ?g] => destruct (write_grids a b c d e f g) as [s2 r2] eqn:W end. apply write_grids_whole in W.
    destruct W as (xs & ys & scaled & slot & instrument & outpath & m & g & fs2 & paths & A & B & C & D & E & AT). right. exists (sg_kw sg), er, b0, p, xs, ys, scaled, slot, instrument, outpath, m, g, fs2, paths. cbn [fst snd] in H.
    split; [exact EP|]. split; [exact A|]. destruct r2 as [nm|e]; inversion H; subst; (split; [|auto]).
    + intros _. apply B. eexists. reflexivity.
    + intros (o & X). discriminate.
Qed.
Lemma whole_app : forall ms ms' fs fs1 fs', whole_files prepare sc resolutions stamp ms fs fs1 -> whole_files prepare sc resolutions stamp ms' fs1 fs' -> whole_files prepare sc resolutions stamp (ms ++ ms') fs fs'.
Proof.
  intros ms ms' fs fs1 fs' H H'. induction H' as [fsa fsb E|ms2 m fsa fsb fsc fsd a r b p xs ys scaled slot instrument outpath nows g paths W IH EP Hm AT E F].
  - rewrite app_nil_r. inversion H; subst.
    + apply W_none. congruence.
    + eapply W_tile; eauto. congruence.
  - rewrite app_assoc. eapply W_tile; eauto.
Qed.
Lemma all_whole : forall clock n, (forall a r b p, prepare a r b = Ok p -> List.length (gd_tedges (pr_gd p)) = S n) ->
  forall sgs st st' r, all clock sgs st = (st', r) ->
  (exists l, fs_dirs (st_fs st') = l ++ fs_dirs (st_fs st)) /\
  ((exists out, r = Ok out /\ whole_files prepare sc resolutions stamp (repeat n (List.length sgs)) (st_fs st) (st_fs st')) \/
   (exists e k m, r = Err e /\ (k < List.length sgs)%nat /\ (m <= n)%nat /\ whole_files prepare sc resolutions stamp (repeat n k ++ [m]) (st_fs st) (st_fs st')) \/
   (exists e k, r = Err e /\ (k < List.length sgs)%nat /\ whole_files prepare sc resolutions stamp (repeat n k) (st_fs st) (st_fs st'))).
Proof.
  intros clock n HN. induction sgs as [|sg sgs IH]; intros st st' r H.
  { inversion H; subst. split; [exists []; reflexivity|]. left. exists []. split; [reflexivity|]. apply W_none. reflexivity. }
  unfold all in H. cbn [proc_all] in H. unfold and_then in H. destruct (proc_each_grid _ _ _ _ _ sg st) as [st1 r1] eqn:E1. cbn [fst snd] in H. apply one_whole in E1.
  destruct E1 as [(F & (e & ->))|(a & er & b & p & xs & ys & scaled & slot & instrument & outpath & m & g & fs2 & paths & EP & Hm & Hok & W & FF & (l & D) & AT)].
  - inversion H; subst. rewrite F. split; [exists []; reflexivity|]. right. right. exists e, 0%nat. cbn. split; [reflexivity|]. split; [lia|]. apply W_none. reflexivity.
  - rewrite (HN _ _ _ _ EP) in Hm, Hok. assert (ONE : whole_files prepare sc resolutions stamp [m] (st_fs st) (st_fs st1)).
    { apply (W_tile _ _ _ _ [] m (st_fs st) (st_fs st) fs2 (st_fs st1) a er b p xs ys scaled slot instrument outpath (clock (sg_ij sg)) g paths); auto; [apply W_none; reflexivity|]. rewrite (HN _ _ _ _ EP). lia. }
    destruct r1 as [o|e].
    + assert (m = n) by (rewrite Hok by eauto; lia). subst m. fold all in H. destruct (all clock sgs st1) as [st2 r2] eqn:E2. destruct (IH _ _ _ E2) as ((l2 & D2) & X).
      assert (ST : st2 = st') by (cbn [fst snd] in H; destruct r2; inversion H; reflexivity). subst st2. cbn [fst snd] in H.
      split; [exists (l2 ++ l); rewrite D2, D, app_assoc; reflexivity|]. destruct X as [(out & -> & W2)|[(e & k & m & -> & Hk & Hm2 & W2)|(e & k & -> & Hk & W2)]].
      * left. inversion H; subst. eexists. split; [reflexivity|]. cbn [List.length repeat]. change (n :: repeat n (List.length sgs)) with ([n] ++ repeat n (List.length sgs)). eapply whole_app; eauto.
      * right. left. inversion H; subst. exists e, (S k), m. split; [reflexivity|]. cbn [List.length]. split; [lia|]. split; [exact Hm2|]. cbn [repeat]. change ((n :: repeat n k) ++ [m]) with ([n] ++ (repeat n k ++ [m])). eapply whole_app; eauto.
      * right. right. inversion H; subst. exists e, (S k). split; [reflexivity|]. cbn [List.length]. split; [lia|]. change (repeat n (S k)) with ([n] ++ repeat n k). eapply whole_app; eauto.
    + inversion H; subst. split; [exists l; exact D|]. right. left. exists e, 0%nat, m. split; [reflexivity|]. cbn. split; [lia|]. split; [lia|exact ONE].
Qed.
End P.
