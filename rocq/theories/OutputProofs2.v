(** Lemmas about the loop that writes files. *)
From Coq Require Import List ZArith QArith Qabs Qround Bool Ascii String Lia Lqa.
From Verif Require Import Base BaseProofs Glm Lut FileName FileNameSpec FileNameProofs FileNameProofs2 Imagery ImagerySpec ImageryProofs PropImagery Aggregate Output OutputSpec OutputProofs.
Import ListNotations.
Open Scope nat_scope.

Lemma path_eqb_iff : forall a b, path_eqb a b = true <-> a = b.
Proof. intros a b. unfold path_eqb. destruct (path_dec a b); split; congruence. Qed.
Lemma path_eqb_refl : forall a, path_eqb a a = true.
Proof. intros a. apply path_eqb_iff. reflexivity. Qed.

Section Loop.
Variables (gd : gridder) (xs ys : pyslice) (scaled : bool) (sc : scenes) (resolutions : list (string * Q)).
Variables (slot instrument : pystr) (outpath : list piece) (stamp : Q -> datetime).
Let X := slice_list xs (centers (gd_xedge gd)).
Let Y := rev (slice_list ys (centers (gd_yedge gd))).
Let one := write_one gd xs ys scaled sc resolutions slot instrument outpath stamp.
Let loop := write_loop gd xs ys scaled sc resolutions slot instrument outpath stamp.

(** What is in the file of one frame, and where it is put. *)
Record made (now : datetime) (t0 t1 : Q) (f : ncfile) (s : pystr) : Prop := mkMade
  { md_scene : exists scene, infer_scene sc X Y = Ok scene /\ scene_name scene = Ok (at_scene (nc_attrs f)) /\
                 dataset_name (stamp t0) (stamp t1) now (gd_platform gd) scene "ABI Mode 3" = Ok (at_name (nc_attrs f));
    md_res : resolution resolutions X = Ok (at_resolution (nc_attrs f));
    md_start : at_start (nc_attrs f) = isoformat (stamp t0) ++ lit "Z";
    md_end : at_end (nc_attrs f) = isoformat (stamp t1) ++ lit "Z";
    md_created : at_created (nc_attrs f) = isoformat now ++ lit "Z";
    md_slot : at_slot (nc_attrs f) = slot;
    md_instrument : at_instrument (nc_attrs f) = instrument;
    md_platform : at_platform (nc_attrs f) = gd_platform gd;
    md_x : nc_x f = map (pack_coord x_enc) X;
    md_y : nc_y f = map (pack_coord y_enc) Y;
    md_name : of_name (nc_out f) = at_name (nc_attrs f);
    md_path : s = format_path outpath (stamp t0) (stamp t1) (at_name (nc_attrs f)) }.

Lemma one_inv : forall now st fs t t0 t1 st' fs' s, one now st fs t t0 t1 = Ok (st', fs', s) ->
  exists f, write_frame gd xs ys scaled sc stamp now st t t0 t1 = Ok (st', nc_out f) /\ made now t0 t1 f s /\
    fs_files fs' = (norm s, f) :: fs_files fs /\ (exists l, fs_dirs fs' = l ++ fs_dirs fs).
Proof.
  intros now st fs t t0 t1 st' fs' s H. unfold one, write_one in H. fold X Y in H.
  apply bind_ok_inv in H. destruct H as (rtext & ER & H). apply bind_ok_inv in H. destruct H as (scene & ES & H).
  apply bind_ok_inv in H. destruct H as (a & EA & H). apply bind_ok_inv in H. destruct H as (fs1 & EF & H).
  apply bind_ok_inv in H. destruct H as (S1 & EW & H). apply bind_ok_inv in H. destruct H as (fs2 & EN & H). inversion H; subst S1 fs2 s; clear H.
  unfold global_attrs in EA. apply bind_ok_inv in EA. destruct EA as (name & En & EA). apply bind_ok_inv in EA. destruct EA as (sn & Esn & EA). inversion EA; subst a; clear EA. cbn [at_name] in *.
  assert (FS1 : fs_files fs1 = fs_files fs /\ exists l, fs_dirs fs1 = l ++ fs_dirs fs).
  { destruct (exists_ _ _); [inversion EF; subst; split; [auto|exists []; auto]|]. unfold makedirs in EF. destruct (dirname _); [discriminate EF|].
    destruct (existsb _ _); [discriminate EF|]. inversion EF. cbn. eauto. }
  unfold to_netcdf in EN. destruct (is_dir _ _); [discriminate EN|]. destruct (negb _); [discriminate EN|]. inversion EN; subst fs'; clear EN. cbn [fs_files fs_dirs].
  destruct FS1 as [F1 F2]. rewrite F1. eexists. split; [|split; [|split; [reflexivity|exact F2]]].
  - unfold write_frame. fold X Y. rewrite ES. cbn [bind]. rewrite En. cbn [bind]. rewrite EW. reflexivity.
  - constructor; cbn; auto. exists scene. auto.
Qed.

Lemma loop_spec : forall nows edges st fs t st' fs' paths, loop nows st fs t edges = Ok (st', fs', paths) ->
  exists files, write_frames gd xs ys scaled sc stamp nows st t edges = Ok (st', map nc_out files) /\
    List.length files = List.length paths /\ List.length paths = List.length edges - 1 /\
    (forall k f, nth_error files k = Some f -> exists t0 t1 s, nth_error edges k = Some t0 /\ nth_error edges (S k) = Some t1 /\
        nth_error paths k = Some s /\ made (nows (t + k)) t0 t1 f s) /\
    fs_files fs' = rev (combine (map norm paths) files) ++ fs_files fs /\ exists l, fs_dirs fs' = l ++ fs_dirs fs.
Proof.
  intros nows edges. induction edges as [|e0 edges IH]; intros st fs t st' fs' paths H.
  { inversion H; subst. exists []. cbn. repeat split; auto; [intros [|k] f Hk; discriminate Hk|exists []; reflexivity]. }
  destruct edges as [|e1 edges].
  { inversion H; subst. exists []. cbn. repeat split; auto; [intros [|k] f Hk; discriminate Hk|exists []; reflexivity]. }
  change (loop nows st fs t (e0 :: e1 :: edges)) with
    (so <- one (nows t) st fs t e0 e1 ;; r <- loop nows (fst (fst so)) (snd (fst so)) (S t) (e1 :: edges) ;; Ok (fst r, snd so :: snd r)) in H.
  apply bind_ok_inv in H. destruct H as (((S1 & fs1) & s0) & W1 & H). cbn [fst snd] in H. apply bind_ok_inv in H. destruct H as (((S2 & fs2) & ps) & W2 & H). cbn [fst snd] in H.
  inversion H; subst S2 fs2 paths; clear H. destruct (one_inv _ _ _ _ _ _ _ _ _ W1) as (f0 & WF & M & F1 & (l1 & D1)).
  destruct (IH _ _ _ _ _ _ W2) as (files & WS & L1 & L2 & P & F2 & (l2 & D2)). exists (f0 :: files).
  split.
  { change (write_frames gd xs ys scaled sc stamp nows st t (e0 :: e1 :: edges)) with
      (so <- write_frame gd xs ys scaled sc stamp (nows t) st t e0 e1 ;;
       r <- write_frames gd xs ys scaled sc stamp nows (fst so) (Datatypes.S t) (e1 :: edges) ;; Ok (fst r, snd so :: snd r)).
    rewrite WF. cbn [bind fst snd]. rewrite WS. reflexivity. }
  split; [cbn; lia|]. split; [cbn in L2 |- *; lia|]. split.
  { intros [|k] f Hk; cbn [nth_error] in Hk.
    - inversion Hk; subst f. exists e0, e1, s0. rewrite Nat.add_0_r. auto.
    - destruct (P k f Hk) as (t0 & t1 & s & A & B & C & D). exists t0, t1, s. replace (t + S k) with (S t + k) by lia. auto. }
  split; [|exists (l2 ++ l1); rewrite D2, D1, app_assoc; reflexivity].
  rewrite F2, F1. cbn [map combine rev]. rewrite <- app_assoc. reflexivity.
Qed.
End Loop.

(** ** Which file is found *)
Lemma find_app : forall A (p : A -> bool) l1 l2, find p (l1 ++ l2) = match find p l1 with Some a => Some a | None => find p l2 end.
Proof. induction l1 as [|a l1 IH]; intros l2; [reflexivity|]. cbn. destruct (p a); auto. Qed.
Lemma find_none_all : forall A (p : A -> bool) l, (forall a, In a l -> p a = false) -> find p l = None.
Proof. induction l as [|a l IH]; intros H; [reflexivity|]. cbn. rewrite (H a (or_introl eq_refl)). apply IH. intros b Hb. apply H. right. exact Hb. Qed.
Lemma lookup_files : forall fs fs' l, fs_files fs' = l ++ fs_files fs ->
  forall p, lookup fs' p = match find (fun e => path_eqb p (fst e)) l with Some e => Some (snd e) | None => lookup fs p end.
Proof. intros fs fs' l H p. unfold lookup. rewrite H, find_app. destruct (find _ l); reflexivity. Qed.
Lemma nth_error_combine : forall A B (l : list A) (m : list B) k a b, nth_error (combine l m) k = Some (a, b) <-> nth_error l k = Some a /\ nth_error m k = Some b.
Proof.
  induction l as [|x l IH]; intros [|y m] [|k] a b; cbn; try (split; [discriminate|intros [H1 H2]; discriminate]).
  - split; [intros H; inversion H; auto|intros [H1 H2]; inversion H1; inversion H2; reflexivity].
  - apply IH.
Qed.
Lemma last_put : forall (paths : list path) (files : list ncfile) k p f, List.length files = List.length paths ->
  nth_error paths k = Some p -> nth_error files k = Some f -> (forall k', k < k' -> nth_error paths k' <> Some p) ->
  find (fun e => path_eqb p (fst e)) (rev (combine paths files)) = Some (p, f).
Proof.
  induction paths as [|q paths IH]; intros [|g files] [|k] p f L Hp Hf N; cbn in L, Hp, Hf; try discriminate.
  - inversion Hp; inversion Hf; subst. cbn [combine rev]. rewrite find_app, find_none_all; [cbn [find fst]; rewrite path_eqb_refl; reflexivity|].
    intros [a b] Hin. apply in_rev in Hin. cbn [fst]. destruct (path_eqb p a) eqn:E; [|reflexivity]. apply path_eqb_iff in E. subst a. exfalso.
    apply in_combine_l in Hin. apply In_nth_error in Hin. destruct Hin as (k & Hk). apply (N (S k)); [lia|exact Hk].
  - cbn [combine rev]. rewrite find_app. rewrite (IH files k p f); auto. intros k' Hk'. apply (N (S k')). lia.
Qed.
(** Some frame is the last one put under a path. *)
Lemma last_index : forall (paths : list path) p, In p paths -> exists k, nth_error paths k = Some p /\ forall k', k < k' -> nth_error paths k' <> Some p.
Proof.
  induction paths as [|q paths IH]; intros p H; [destruct H|]. destruct (in_dec path_dec p paths) as [I|I].
  - destruct (IH p I) as (k & A & B). exists (S k). split; [exact A|]. intros [|k'] L; [lia|]. apply B. lia.
  - destruct H as [->|H]; [|contradiction]. exists 0. split; [reflexivity|]. intros [|k'] L; [lia|]. cbn. intros E. apply I. eapply nth_error_In. exact E.
Qed.

(** ** Calls *)
Definition slices (j : job) : pyslice := pad_slice (Z.of_nat (j_pad j)).
Definition made_by (j : job) (k : nat) (t0 t1 : Q) (f : ncfile) (s : pystr) : Prop :=
  made (j_gd j) (slices j) (slices j) (j_scenes j) (j_resolutions j) (j_slot j) (j_instrument j) (j_outpath j) (j_stamp j) (j_nows j k) t0 t1 f s.
Lemma saves_spec : forall j og fs af fs' paths, saves j og fs af fs' paths ->
  exists files, writes (j_gd j) (j_pad j) (j_scaled j) (j_mx j) (j_my j) og af (map nc_out files) /\
    List.length files = List.length paths /\ List.length paths = List.length (gd_tedges (j_gd j)) - 1 /\
    (forall k f, nth_error files k = Some f -> exists t0 t1 s, nth_error (gd_tedges (j_gd j)) k = Some t0 /\ nth_error (gd_tedges (j_gd j)) (S k) = Some t1 /\
        nth_error paths k = Some s /\ made_by j k t0 t1 f s) /\
    fs_files fs' = rev (combine (map norm paths) files) ++ fs_files fs /\ exists l, fs_dirs fs' = l ++ fs_dirs fs.
Proof.
  intros j og fs af fs' paths ((A1 & A2 & A3 & A4 & A5 & A6 & A7) & H). unfold call, write_imagery in H. destruct (loop_spec _ _ _ _ _ _ _ _ _ _ _ _ _ _ _ _ _ _ H) as (files & W & L1 & L2 & P & F & D).
  exists files. split; [|auto]. repeat (split; [assumption|]). exists (j_scenes j), (j_stamp j), (j_nows j). exact W.
Qed.
Lemma cols_rows : forall j og, proper j og -> slice_list (slices j) (centers (gd_xedge (j_gd j))) = columns j /\ slice_list (slices j) (centers (gd_yedge (j_gd j))) = rows j.
Proof.
  assert (K : forall e pad m, List.length e = S (m + 2 * pad) -> slice_list (pad_slice (Z.of_nat pad)) (centers e) = map (fun c => center e (pad + c)) (seq 0 m)).
  { intros e pad m L. destruct (coords e pad m L) as [C1 C2]. apply nth_error_ext. intros c. destruct (Nat.lt_ge_cases c m) as [H|H].
    - rewrite C2 by auto. rewrite nth_error_map, nth_error_seq by auto. reflexivity.
    - rewrite !(proj2 (nth_error_None _ _)); auto; [rewrite map_length, seq_length; auto|rewrite C1; auto]. }
  intros j og (A1 & A2 & A3 & A4 & _). split; apply K; auto.
Qed.
