(** Lemmas about calls of grid_GLM_flashes. *)
From Coq Require Import List ZArith QArith Bool String Lia.
From Verif Require Import Base BaseProofs Glm Lut FileName Imagery ImageryProofs Aggregate Output OutputProofs OutputProofs2 Tiles Gridder Calls CallsSpec.
Import ListNotations.
Open Scope string_scope.
Open Scope list_scope.

(** * Dictionaries *)
Lemma kget_in : forall kw k v, kget k kw = Some v -> In (k, v) kw.
Proof.
  unfold kget. intros kw k v H. destruct (find _ kw) as [[a b]|] eqn:F; [|discriminate]. inversion H; subst. apply find_some in F. destruct F as [I E]. cbn in *. apply String.eqb_eq in E. subst. exact I.
Qed.
Lemma kget_none : forall kw k, kget k kw = None <-> omitted kw k.
Proof.
  unfold kget, omitted. intros kw k. split.
  - intros H v I. destruct (find _ kw) as [[a b]|] eqn:F; [discriminate|]. apply (find_none _ _ F) in I. cbn in I. rewrite String.eqb_refl in I. discriminate.
  - intros H. destruct (find _ kw) as [[a b]|] eqn:F; [|reflexivity]. apply find_some in F. destruct F as [I E]. cbn in E. apply String.eqb_eq in E. subst. destruct (H b I).
Qed.
Lemma kget_given : forall kw k v, keywords kw -> (kget k kw = Some v <-> In (k, v) kw).
Proof.
  intros kw k v ND. split; [apply kget_in|]. intros I. destruct (kget k kw) as [w|] eqn:E.
  - apply kget_in in E. f_equal. unfold keywords in ND. revert ND I E. induction kw as [|[a b] kw IH]; intros ND I E; [destruct I|]. inversion ND; subst. destruct I as [I|I], E as [E|E].
    + congruence.
    + inversion I; subst. destruct H1. apply in_map_iff. exists (k, w). auto.
    + inversion E; subst. destruct H1. apply in_map_iff. exists (k, v). auto.
    + auto.
  - apply kget_none in E. destruct (E v I).
Qed.
Lemma kget_kdel : forall k k' kw, kget k (kdel k' kw) = if String.eqb k k' then None else kget k kw.
Proof.
  intros k k' kw. unfold kget, kdel. induction kw as [|[a b] kw IH]; cbn; [destruct (String.eqb k k'); auto|].
  destruct (String.eqb a k') eqn:E; cbn.
  - rewrite IH. apply String.eqb_eq in E. subst a. destruct (String.eqb k k') eqn:E2; [reflexivity|]. rewrite String.eqb_sym, E2. reflexivity.
  - destruct (String.eqb a k) eqn:E3; [|exact IH]. apply String.eqb_eq in E3. subst a. rewrite E. reflexivity.
Qed.
Lemma find_app' : forall {A} (f : A -> bool) l l', find f (l ++ l') = match find f l with Some a => Some a | None => find f l' end.
Proof. induction l as [|a l IH]; intros; cbn; [reflexivity|]. destruct (f a); auto. Qed.
Lemma kget_kset : forall k k' v kw, kget k (kset k' v kw) = if String.eqb k k' then Some v else kget k kw.
Proof.
  intros k k' v kw. unfold kset. unfold kget at 1. rewrite find_app'. fold (kget k (kdel k' kw)).
  pose proof (kget_kdel k k' kw) as H. unfold kget at 1 in H. destruct (find _ (kdel k' kw)) as [p|] eqn:F.
  - destruct (String.eqb k k'); [discriminate|]. exact H.
  - cbn. rewrite String.eqb_sym. destruct (String.eqb k k') eqn:E; [reflexivity|]. exact H.
Qed.
Lemma khas_kdel : forall k k' kw, khas k (kdel k' kw) = negb (String.eqb k k') && khas k kw.
Proof. intros. unfold khas. rewrite kget_kdel. destruct (String.eqb k k'); reflexivity. Qed.
Lemma khas_kset : forall k k' v kw, khas k (kset k' v kw) = String.eqb k k' || khas k kw.
Proof. intros. unfold khas. rewrite kget_kset. destruct (String.eqb k k'); reflexivity. Qed.
Lemma khas_given : forall kw k, khas k kw = true <-> given kw k.
Proof.
  intros kw k. unfold khas, given. destruct (kget k kw) as [v|] eqn:E; split; intros H; auto; try discriminate.
  - exists v. apply kget_in; auto.
  - apply kget_none in E. destruct H as (v & I). destruct (E v I).
Qed.
(** Which keys [move] moves. *)
Lemma move_get : forall names from into k,
  NoDup names ->
  kget k (fst (move names from into)) = (if existsb (String.eqb k) names then None else kget k from) /\
  kget k (snd (move names from into)) = (if existsb (String.eqb k) names then match kget k from with Some v => Some v | None => kget k into end else kget k into).
Proof.
  induction names as [|n names IH]; intros from into k ND; [split; reflexivity|]. inversion ND; subst. cbn [move existsb]. destruct (kget n from) as [v|] eqn:E.
  - destruct (IH (kdel n from) (kset n v into) k H2) as [A B]. rewrite A, B, kget_kdel, kget_kset. destruct (String.eqb k n) eqn:EK; cbn [orb].
    + apply String.eqb_eq in EK. subst k. assert (X : existsb (String.eqb n) names = false). { destruct (existsb _ names) eqn:X; [|reflexivity]. apply existsb_exists in X. destruct X as (y & Iy & Ey). apply String.eqb_eq in Ey. subst y. contradiction. }
      rewrite X, E. auto.
    + auto.
  - destruct (IH from into k H2) as [A B]. rewrite A, B. destruct (String.eqb k n) eqn:EK; cbn [orb]; [|auto]. apply String.eqb_eq in EK. subst k. rewrite E. destruct (existsb _ names); auto.
Qed.
Lemma process_nodup : NoDup process_keys.
Proof. repeat constructor; cbn; intuition discriminate. Qed.
Lemma output_nodup : NoDup output_keys.
Proof. repeat constructor; cbn; intuition discriminate. Qed.

(** * Writing *)
Section W.
Variables (sc : scenes) (resolutions : list (string * Q)) (stamp : Q -> datetime).
Variables (gd : gridder) (xs ys : pyslice) (scaled : bool) (slot instrument : pystr) (outpath : list piece) (nows : nat -> datetime).
Let to := write_frames_to sc resolutions stamp gd xs ys scaled slot instrument outpath nows.
Let loop := write_loop gd xs ys scaled sc resolutions slot instrument outpath stamp nows.
Let one := write_one gd xs ys scaled sc resolutions slot instrument outpath stamp.
Lemma to_step : forall g fs t t0 t1 rest, to g fs t (t0 :: t1 :: rest) =
  match one (nows t) g fs t t0 t1 with
  | Ok so => let r := to (fst (fst so)) (snd (fst so)) (S t) (t1 :: rest) in (fst r, res_map (cons (snd so)) (snd r))
  | Err e => (left_by_frame sc resolutions stamp gd xs ys slot instrument outpath (nows t) fs t0 t1, Err e)
  end.
Proof. reflexivity. Qed.
Lemma loop_step : forall g fs t t0 t1 rest, loop g fs t (t0 :: t1 :: rest) =
  (so <- one (nows t) g fs t t0 t1 ;; r <- loop (fst (fst so)) (snd (fst so)) (S t) (t1 :: rest) ;; Ok (fst r, snd so :: snd r)).
Proof. reflexivity. Qed.
(** Success is that of write_goes_imagery. *)
Lemma to_ok : forall edges g fs t fs' paths, to g fs t edges = (fs', Ok paths) -> exists g', loop g fs t edges = Ok (g', fs', paths).
Proof.
  induction edges as [|t0 edges IH]; intros g fs t fs' paths H; [inversion H; subst; exists g; reflexivity|]. destruct edges as [|t1 edges]; [inversion H; subst; exists g; reflexivity|].
  rewrite to_step in H. rewrite loop_step. destruct (one (nows t) g fs t t0 t1) as [so|e]; [|inversion H]. cbn [bind].
  destruct (to (fst (fst so)) (snd (fst so)) (S t) (t1 :: edges)) as [fs2 [ps|e]] eqn:E; cbn in H; [|inversion H]. inversion H; subst.
  destruct (IH _ _ _ _ _ E) as (g' & L). rewrite L. exists g'. reflexivity.
Qed.
Lemma loop_to : forall edges g fs t g' fs' paths, loop g fs t edges = Ok (g', fs', paths) -> to g fs t edges = (fs', Ok paths).
Proof.
  induction edges as [|t0 edges IH]; intros g fs t g' fs' paths H; [inversion H; subst; reflexivity|]. destruct edges as [|t1 edges]; [inversion H; subst; reflexivity|].
  rewrite loop_step in H. rewrite to_step. destruct (one (nows t) g fs t t0 t1) as [so|e]; cbn [bind] in H; [|discriminate].
  destruct (loop (fst (fst so)) (snd (fst so)) (S t) (t1 :: edges)) as [[[g2 fs2] ps]|e] eqn:E; cbn in H; [|discriminate]. inversion H; subst. rewrite (IH _ _ _ _ _ _ E). reflexivity.
Qed.
Lemma left_files : forall now fs t0 t1, fs_files (left_by_frame sc resolutions stamp gd xs ys slot instrument outpath now fs t0 t1) = fs_files fs /\
  exists l, fs_dirs (left_by_frame sc resolutions stamp gd xs ys slot instrument outpath now fs t0 t1) = l ++ fs_dirs fs.
Proof.
  intros now fs t0 t1. unfold left_by_frame. destruct (resolution resolutions _) as [rt|]; cbn [bind]; [|split; [|exists []]; reflexivity].
  destruct (infer_scene _ _ _) as [scene|]; cbn [bind]; [|split; [|exists []]; reflexivity]. destruct (global_attrs _ _ _ _ _ _ _ _) as [a|]; cbn [bind]; [|split; [|exists []]; reflexivity].
  destruct (exists_ fs _); [split; [|exists []]; reflexivity|]. unfold makedirs. destruct (dirname _); [split; [|exists []]; reflexivity|]. destruct (existsb _ _); [split; [|exists []]; reflexivity|]. cbn. split; [reflexivity|eexists; reflexivity].
Qed.
(** What is left by an exception: the files of the frames before it. *)
Lemma to_err : forall edges g fs t fs' e, to g fs t edges = (fs', Err e) ->
  exists m g' fsm paths, (m < List.length edges - 1)%nat /\ loop g fs t (firstn (S m) edges) = Ok (g', fsm, paths) /\
    fs_files fs' = fs_files fsm /\ exists l, fs_dirs fs' = l ++ fs_dirs fsm.
Proof.
  induction edges as [|t0 edges IH]; intros g fs t fs' e H; [inversion H|]. destruct edges as [|t1 edges]; [inversion H|].
  rewrite to_step in H. destruct (one (nows t) g fs t t0 t1) as [so|e'] eqn:E1.
  - destruct (to (fst (fst so)) (snd (fst so)) (S t) (t1 :: edges)) as [fs2 [ps|e2]] eqn:E; cbn in H; inversion H; subst.
    destruct (IH _ _ _ _ _ E) as (m & g' & fsm & paths & Hm & L & F & D). exists (S m), g', fsm, (snd so :: paths). cbn [List.length] in *. split; [lia|]. split; [|auto].
    change (firstn (S (S m)) (t0 :: t1 :: edges)) with (t0 :: t1 :: firstn m edges). rewrite loop_step, E1. cbn [bind]. change (t1 :: firstn m edges) with (firstn (S m) (t1 :: edges)). rewrite L. reflexivity.
  - inversion H; subst. destruct (left_files (nows t) fs t0 t1) as [F D]. exists 0%nat, g, fs, []. cbn [List.length firstn]. split; [lia|]. split; [reflexivity|]. split; [exact F|exact D].
Qed.
End W.
