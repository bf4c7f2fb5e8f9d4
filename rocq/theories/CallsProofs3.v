(** Lemmas about calls of grid_GLM_flashes, continued: missing arguments and arguments
    whose value is not used. *)
From Coq Require Import List ZArith QArith Bool String Lia.
From Verif Require Import Base BaseProofs Glm Lut FileName Imagery ImageryProofs Aggregate Output OutputProofs OutputProofs2 Tiles TilesProofs Gridder Calls CallsSpec CallsProofs CallsProofs2.
Import ListNotations.
Open Scope string_scope.
Open Scope list_scope.

(** The tiles of a call: there is one, and each has the arguments of the call. *)
Lemma subgrids_ok : forall kw sgs, keywords kw -> subgrids kw = Ok sgs ->
  sgs <> [] /\ given kw "proj_name" /\ (lonlat_grid kw -> given kw "x_bnd" /\ given kw "y_bnd") /\
  (fixed_grid kw -> forall k, In k ["x_bnd"; "y_bnd"; "dx"; "dy"; "nadir_lon"; "output_filename_prefix"; "output_writer"] -> given kw k) /\
  forall sg k, In sg sgs -> In k ["ellipse_rev"; "clip_events"] -> kget k (sg_proc sg) = kget k kw.
Proof.
  intros kw sgs KW H. rewrite subgrids_eq in H. destruct (need "proj_name" (grid_args kw)) as [proj|] eqn:EP; cbn [bind] in H; [|discriminate].
  apply need_inv in EP. rewrite grid_get in EP by (cbn; tauto). assert (GP : given kw "proj_name") by (exists proj; apply kget_in; auto).
  pose proof (lonlat_iff kw proj KW EP) as LL.
  assert (PR : forall k, In k ["ellipse_rev"; "clip_events"] -> kget k (proc_args kw) = kget k kw).
  { intros k I. rewrite proc_get. cbn in I. destruct I as [<-|[<-|[]]]; reflexivity. }
  assert (GG : forall k, kget k kw <> None -> given kw k).
  { intros k N. destruct (kget k kw) as [v|] eqn:E; [|congruence]. exists v. apply kget_in; auto. }
  destruct (is_lonlat proj) eqn:EL.
  - destruct (need "x_bnd" (grid_args kw)) as [xb|] eqn:EX; cbn [bind] in H; [|discriminate]. destruct (need "y_bnd" (grid_args kw)) as [yb|] eqn:EY; cbn [bind] in H; [|discriminate].
    apply need_inv in EX, EY. rewrite grid_get in EX, EY by (cbn; tauto). inversion H; subst sgs. split; [discriminate|]. split; [exact GP|]. split; [|split].
    + intros _. split; apply GG; congruence.
    + intros [NL _]. destruct NL. apply LL. reflexivity.
    + intros sg k [<-|[]] I. cbn [sg_proc]. rewrite !kget_kset. rewrite <- (PR k I). cbn in I. destruct I as [<-|[<-|[]]]; reflexivity.
  - assert (NL : ~ lonlat_grid kw) by (intros X; apply LL in X; congruence). destruct (khas "fixed_grid" (proc_args kw)) eqn:EF.
    + destruct (natural (subdivide_arg kw)) as [s|]; cbn [bind] in H; [|discriminate]. apply fixed_inv in H.
      destruct H as (dx & dy & xb & yb & ts & G1 & G2 & G3 & G4 & G5 & ET & IX & S0 & prefix & writer & G6 & G7 & ->).
      split. { destruct ts; [|discriminate]. destruct s; [congruence|]. discriminate IX. }
      split; [exact GP|]. split; [intros X; contradiction|]. split.
      * intros _ k I. apply GG. rewrite !grid_get in G1, G2, G3, G4 by (cbn; tauto). rewrite proc_get in G5. rewrite out_get in G6, G7. cbn in I. destruct I as [<-|[<-|[<-|[<-|[<-|[<-|[<-|[]]]]]]]]; cbn in G5, G6, G7; congruence.
      * intros sg k I1 I. apply in_map_iff in I1. destruct I1 as (t & <- & _). cbn [tile_sub sg_proc]. unfold tile_bounds. rewrite !kget_kset. rewrite <- (PR k I). cbn in I. destruct I as [<-|[<-|[]]]; reflexivity.
    + inversion H; subst sgs. split; [discriminate|]. split; [exact GP|]. split; [intros X; contradiction|]. split.
      * intros [_ F]. apply khas_given in F. unfold khas in EF, F. rewrite proc_get in EF. cbn in EF. congruence.
      * intros sg k [<-|[]] I. cbn [sg_proc]. rewrite !kget_kset. rewrite <- (PR k I). cbn in I. destruct I as [<-|[<-|[]]]; reflexivity.
Qed.

(** * Arguments that differ in one value *)
Lemma differ_refl : forall k kw, differ_in k kw kw.
Proof. intros k kw. unfold differ_in. induction kw; constructor; auto. Qed.
Lemma differ_get : forall k kw kw' j, differ_in k kw kw' -> j <> k -> kget j kw = kget j kw'.
Proof.
  intros k kw kw' j H N. unfold kget. induction H as [|[a b] [a' b'] l l' [E V] F IH]; [reflexivity|]. cbn in *. subst a'. destruct (String.eqb a j) eqn:EJ; [|exact IH].
  apply String.eqb_eq in EJ. subst a. rewrite V by auto. reflexivity.
Qed.
Lemma differ_has : forall k kw kw' j, differ_in k kw kw' -> khas j kw = khas j kw'.
Proof.
  intros k kw kw' j H. unfold khas, kget. induction H as [|[a b] [a' b'] l l' [E V] F IH]; [reflexivity|]. cbn in *. subst a'. destruct (String.eqb a j); auto.
Qed.
Lemma differ_del : forall k kw kw' j, differ_in k kw kw' -> differ_in k (kdel j kw) (kdel j kw').
Proof.
  intros k kw kw' j H. unfold differ_in, kdel in *. induction H as [|[a b] [a' b'] l l' [E V] F IH]; cbn; [constructor|]. cbn in E, V. subst a'. destruct (String.eqb a j); cbn; [exact IH|]. constructor; auto.
Qed.
Lemma differ_del_same : forall k kw kw', differ_in k kw kw' -> kdel k kw = kdel k kw'.
Proof.
  intros k kw kw' H. unfold differ_in, kdel in *. induction H as [|[a b] [a' b'] l l' [E V] F IH]; cbn; [reflexivity|]. cbn in E, V. subst a'. destruct (String.eqb a k) eqn:EK; cbn; [exact IH|]. apply String.eqb_neq in EK. rewrite V by auto. f_equal. exact IH.
Qed.
Lemma differ_set : forall k kw kw' j v, differ_in k kw kw' -> differ_in k (kset j v kw) (kset j v kw').
Proof. intros k kw kw' j v H. unfold kset. apply Forall2_app; [apply differ_del; auto|]. repeat constructor. Qed.
Lemma differ_set_at : forall k kw kw' v v', differ_in k kw kw' -> differ_in k (kset k v kw) (kset k v' kw').
Proof. intros k kw kw' v v' H. unfold kset. apply Forall2_app; [apply differ_del; auto|]. constructor; [|constructor]. cbn. split; [reflexivity|congruence]. Qed.
Lemma differ_move : forall k names a a' b b', differ_in k a a' -> differ_in k b b' ->
  differ_in k (fst (move names a b)) (fst (move names a' b')) /\ differ_in k (snd (move names a b)) (snd (move names a' b')).
Proof.
  intros k names. induction names as [|n names IH]; intros a a' b b' H H'; [split; auto|]. cbn [move].
  pose proof (differ_has k a a' n H) as X. unfold khas in X. destruct (kget n a) as [v|] eqn:E, (kget n a') as [v'|] eqn:E'; try discriminate; [|apply IH; auto].
  destruct (string_dec n k) as [->|N].
  - apply IH; [apply differ_del; auto|apply differ_set_at; auto].
  - pose proof (differ_get k a a' n H N) as Y. rewrite E, E' in Y. inversion Y; subst. apply IH; [apply differ_del; auto|apply differ_set; auto].
Qed.
Lemma differ_omitted : forall k kw kw', differ_in k kw kw' -> kget k kw = None -> kw = kw'.
Proof.
  intros k kw kw' H N. apply kget_none in N. unfold differ_in in H. revert N. induction H as [|[a b] [a' b'] l l' [E V] F IH]; intros N; [reflexivity|]. cbn in E, V. subst a'. f_equal.
  - f_equal. apply V. intros ->. apply (N b). left. reflexivity.
  - apply IH. intros v I. apply (N v). right. exact I.
Qed.
Lemma differ_start : forall k kw kw', differ_in k kw kw' -> differ_in k (start_args kw) (start_args kw').
Proof. intros. unfold start_args. apply differ_del, differ_set. auto. Qed.
Lemma differ_proc : forall k kw kw', differ_in k kw kw' -> differ_in k (proc_args kw) (proc_args kw').
Proof. intros. unfold proc_args. apply differ_move; [apply differ_start; auto|constructor]. Qed.
Lemma differ_mid : forall k kw kw', differ_in k kw kw' -> differ_in k (mid_args kw) (mid_args kw').
Proof.
  intros k kw kw' H. unfold mid_args. rewrite (differ_has k _ _ "clip_events" (differ_proc k kw kw' H)).
  assert (X : differ_in k (fst (move process_keys (start_args kw) [])) (fst (move process_keys (start_args kw') []))) by (apply differ_move; [apply differ_start; auto|constructor]).
  destruct (khas _ _); [apply differ_set; auto|exact X].
Qed.
Lemma differ_out : forall k kw kw', differ_in k kw kw' -> differ_in k (out_args kw) (out_args kw').
Proof. intros. unfold out_args. apply differ_move; [apply differ_mid; auto|constructor]. Qed.
Lemma differ_grid : forall k kw kw', differ_in k kw kw' -> differ_in k (grid_args kw) (grid_args kw').
Proof. intros. unfold grid_args. apply differ_move; [apply differ_mid; auto|constructor]. Qed.

(** Tiles of such calls. *)
Definition alike (k : string) (a b : subgrid) : Prop :=
  sg_ij a = sg_ij b /\ differ_in k (sg_kw a) (sg_kw b) /\ differ_in k (sg_proc a) (sg_proc b) /\ differ_in k (sg_out a) (sg_out b) /\
  option_map fst (sg_pre a) = option_map fst (sg_pre b).
Definition same_error {A} (R : A -> A -> Prop) (r r' : res A) : Prop :=
  match r, r' with Ok a, Ok b => R a b | Err e, Err e' => e = e' | _, _ => False end.
Lemma fixed_alike : forall k kw kw' proc proc' out out' s, differ_in k kw kw' -> differ_in k proc proc' -> differ_in k out out' ->
  In k ["clip_events"; "output_writer"; "output_writer_3d"] ->
  same_error (Forall2 (alike k)) (fixed_subgrids kw proc out s) (fixed_subgrids kw' proc' out' s).
Proof.
  intros k kw kw' proc proc' out out' s H1 H2 H3 I. assert (NK : forall j, In j ["dx"; "dy"; "x_bnd"; "y_bnd"; "nadir_lon"; "output_filename_prefix"] -> j <> k).
  { intros j J ->. cbn in I, J. intuition (subst; discriminate). }
  unfold fixed_subgrids, need. rewrite <- (differ_get k kw kw' "dx" H1), <- (differ_get k kw kw' "dy" H1), <- (differ_get k kw kw' "x_bnd" H1), <- (differ_get k kw kw' "y_bnd" H1), <- (differ_get k proc proc' "nadir_lon" H2) by (apply NK; cbn; tauto).
  destruct (kget "dx" kw) as [vx|]; cbn [bind]; [|reflexivity]. destruct (number vx) as [dx|]; cbn [bind]; [|reflexivity]. destruct (Qeq_bool dx 0); cbn [bind]; [reflexivity|].
  destruct (kget "dy" kw) as [vy|]; cbn [bind]; [|reflexivity]. destruct (number vy) as [dy|]; cbn [bind]; [|reflexivity]. destruct (Qeq_bool dy 0); cbn [bind]; [reflexivity|].
  destruct (kget "x_bnd" kw) as [bx|]; cbn [bind]; [|reflexivity]. destruct (bounds bx) as [xb|]; cbn [bind]; [|reflexivity]. destruct (subdivide_bnd xb dx s); cbn [bind]; [|reflexivity].
  destruct (kget "y_bnd" kw) as [by_|]; cbn [bind]; [|reflexivity]. destruct (bounds by_) as [yb|]; cbn [bind]; [|reflexivity]. destruct (subdivided_fixed_grid xb yb dx dy s) as [ts|]; cbn [bind]; [|reflexivity].
  destruct (kget "nadir_lon" proc); cbn [bind]; [|reflexivity].
  rewrite <- (differ_get k out out' "output_filename_prefix" H3) by (apply NK; cbn; tauto).
  destruct (kget "output_filename_prefix" out) as [vp|]; [|destruct ts; [constructor|reflexivity]]. cbn [bind]. destruct (text vp) as [prefix|]; [|destruct ts; [constructor|reflexivity]]. cbn [bind].
  pose proof (differ_has k out out' "output_writer" H3) as HW. unfold khas in HW. destruct (kget "output_writer" out) as [w|], (kget "output_writer" out') as [w'|]; try discriminate; cbn [bind]; [|destruct ts; [constructor|reflexivity]].
  induction ts as [|t ts IH]; [constructor|]. cbn [map_res bind].
  match type of IH with same_error _ ?a ?b => destruct a as [l|], b as [l'|] end; cbn [same_error bind] in *; auto; try contradiction. constructor; [|exact IH].
  unfold alike. cbn [sg_ij sg_kw sg_proc sg_out sg_pre option_map fst]. split; [reflexivity|]. repeat split; auto; repeat apply differ_set; auto.
Qed.
Lemma subgrids_alike : forall k kw kw', differ_in k kw kw' -> In k ["clip_events"; "output_writer"; "output_writer_3d"] ->
  same_error (Forall2 (alike k)) (subgrids kw) (subgrids kw').
Proof.
  intros k kw kw' H I. rewrite !subgrids_eq. assert (NK : forall j, In j ["proj_name"; "x_bnd"; "y_bnd"; "subdivide"] -> j <> k).
  { intros j J ->. cbn in I, J. intuition (subst; discriminate). }
  unfold need, subdivide_arg. rewrite <- (differ_get k _ _ "proj_name" (differ_grid k kw kw' H)), <- (differ_get k _ _ "x_bnd" (differ_grid k kw kw' H)), <- (differ_get k _ _ "y_bnd" (differ_grid k kw kw' H)), <- (differ_get k _ _ "subdivide" H), <- (differ_has k _ _ "fixed_grid" (differ_proc k kw kw' H)) by (apply NK; cbn; tauto).
  assert (ONE : forall a b, differ_in k a b -> alike k (mkSub (0, 0)%nat (grid_args kw) a (out_args kw) None) (mkSub (0, 0)%nat (grid_args kw') b (out_args kw') None)).
  { intros a b D. unfold alike. cbn. repeat split; auto; [apply differ_grid|apply differ_out]; auto. }
  destruct (kget "proj_name" (grid_args kw)) as [proj|]; cbn [bind]; [|reflexivity]. destruct (is_lonlat proj).
  - destruct (kget "x_bnd" _); cbn [bind]; [|reflexivity]. destruct (kget "y_bnd" _); cbn [bind]; [|reflexivity]. constructor; [|constructor]. apply ONE. repeat apply differ_set. apply differ_proc. auto.
  - destruct (khas "fixed_grid" (proc_args kw)); [|constructor; [|constructor]; apply ONE; repeat apply differ_set; apply differ_proc; auto].
    destruct (natural _) as [s|]; cbn [bind]; [|reflexivity]. apply fixed_alike; auto; [apply differ_grid|apply differ_proc|apply differ_out]; auto.
Qed.
Section P.
Variable prepare : kwargs -> kval -> kwargs -> res prepared.
Variables (sc : scenes) (resolutions : list (string * Q)) (stamp : Q -> datetime).
Lemma write_grids_alike : forall k out out' nows p st, differ_in k out out' -> k <> "outpath" -> k <> "output_kwargs" ->
  write_grids sc resolutions stamp nows p out st = write_grids sc resolutions stamp nows p out' st.
Proof. intros k out out' nows p st H N1 N2. unfold write_grids. rewrite (differ_get k out out' "outpath" H), (differ_get k out out' "output_kwargs" H) by congruence. reflexivity. Qed.
Lemma one_alike : forall k a b nows st, alike k a b -> In k ["clip_events"; "output_writer"; "output_writer_3d"] ->
  (k <> "clip_events" -> kget k (sg_kw a) = None /\ kget k (sg_proc a) = None) -> kget "clip_events" (sg_kw a) = None ->
  proc_each_grid prepare sc resolutions stamp nows a st = proc_each_grid prepare sc resolutions stamp nows b st.
Proof.
  intros k a b nows st (A1 & A2 & A3 & A4 & A5) I N NC. unfold proc_each_grid.
  assert (EK : sg_kw a = sg_kw b). { apply (differ_omitted k); auto. destruct (string_dec k "clip_events") as [->|X]; [exact NC|apply N; auto]. }
  assert (NE : forall j, In j ["ellipse_rev"; "output_kwargs"; "outpath"] -> j <> k). { intros j J ->. cbn in I, J. intuition (subst; discriminate). }
  unfold need. rewrite <- (differ_get k _ _ "ellipse_rev" A3) by (apply NE; cbn; tauto). destruct (kget "ellipse_rev" (sg_proc a)) as [er|]; [|reflexivity].
  unfold and_then at 1, pure at 1. cbn [fst snd]. unfold and_then at 4, pure at 3. cbn [fst snd].
  rewrite <- (differ_has k _ _ "clip_events" (differ_del k _ _ "ellipse_rev" A3)).
  assert (EPR : (if khas "clip_events" (kdel "ellipse_rev" (sg_proc a)) then kset "clip_events" KMesh (kdel "ellipse_rev" (sg_proc a)) else kdel "ellipse_rev" (sg_proc a)) =
                (if khas "clip_events" (kdel "ellipse_rev" (sg_proc a)) then kset "clip_events" KMesh (kdel "ellipse_rev" (sg_proc b)) else kdel "ellipse_rev" (sg_proc b))).
  { destruct (string_dec k "clip_events") as [->|X].
    - destruct (khas _ _) eqn:EH; [unfold kset; rewrite (differ_del_same _ _ _ (differ_del _ _ _ "ellipse_rev" A3)); reflexivity|]. apply (differ_omitted "clip_events"); [apply differ_del; auto|]. unfold khas in EH. destruct (kget "clip_events" (kdel "ellipse_rev" (sg_proc a))); [discriminate|reflexivity].
    - rewrite (differ_omitted k _ _ A3 (proj2 (N X))). reflexivity. }
  rewrite EPR, EK.
  destruct (pipeline_setup _) as [fd|]; [|reflexivity]. unfold and_then, pure. cbn [fst snd].
  match goal with |- context [prepare ?x ?y ?z] => destruct (prepare x y z) as [p|]; [|reflexivity] end.
  rewrite <- A1, <- (differ_has k _ _ "output_kwargs" A4).
  destruct (sg_pre a) as [[[npx npy] w]|], (sg_pre b) as [[[npx' npy'] w']|]; cbn in A5; try discriminate.
  - inversion A5; subst. assert (WA : forall w, write_all w [] = []) by (intros [| | |[]| | | | | | |]; reflexivity). rewrite !WA. destruct (khas "output_kwargs" (sg_out a)).
    + rewrite <- (differ_get k _ _ "output_kwargs" A4) by (apply NE; cbn; tauto). destruct (match kget "output_kwargs" (sg_out a) with Some (KDict r) => Ok r | _ => Err TypeError end) as [r|]; [|reflexivity].
      rewrite <- (write_grids_alike k (sg_out a) (sg_out b)); auto; intros X; (eapply NE; [|symmetry; exact X]); cbn; tauto.
    + rewrite !kget_kset. cbn [String.eqb Ascii.eqb Bool.eqb]. rewrite <- (write_grids_alike k (kset "output_kwargs" (KDict Fresh) (sg_out a)) (kset "output_kwargs" (KDict Fresh) (sg_out b))); auto; [apply differ_set; auto| |]; intros X; (eapply NE; [|symmetry; exact X]); cbn; tauto.
  - rewrite <- (write_grids_alike k (sg_out a) (sg_out b)); auto; intros X; (eapply NE; [|symmetry; exact X]); cbn; tauto.
Qed.
End P.
