(** Lemmas about paths and names of written files. *)
From Coq Require Import List ZArith QArith Qabs Qround Bool Ascii String Lia Lqa.
From Verif Require Import Base BaseProofs Glm Lut FileName FileNameSpec FileNameProofs FileNameProofs2 GridSetup GridSetupSpec GridSetupProofs Imagery ImagerySpec ImageryProofs PropImagery Aggregate Output OutputSpec OutputProofs OutputProofs2.
Import ListNotations.
Open Scope nat_scope.

(** * Texts without slash *)
Lemma pad_no_slash : forall k n, ~ In "/"%char (pad k n).
Proof. intros k n H. revert H. apply digits_no; [apply pad_digits|left; reflexivity]. Qed.
Lemma strftime_no_slash : forall d, ~ In "/"%char (strftime d).
Proof. intros d H. unfold strftime in H. rewrite !in_app_iff in H. repeat (destruct H as [H|H]; [exact (pad_no_slash _ _ H)|]). exact (pad_no_slash _ _ H). Qed.
Lemma output_name_shape : forall s e c plat scene tl name, dataset_name s e c plat scene tl = Ok name -> ~ In "/"%char plat ->
  ~ In "/"%char name /\ exists rest, name = lit "OR_GLM-L2-GLM" ++ rest.
Proof.
  intros s e c plat scene tl name H P. unfold dataset_name in H. apply bind_ok_inv in H. destruct H as (m & Em & H). apply bind_ok_inv in H. destruct H as (sc & Es & H).
  assert (E : name = lit "OR_GLM-L2-GLM" ++ (lit sc ++ lit "-" ++ lit m ++ lit "_" ++ plat ++ lit "_s" ++ (strftime s ++ lit "0") ++ lit "_e" ++ (strftime e ++ lit "0") ++ lit "_c" ++ (strftime c ++ lit "0") ++ lit ".nc")) by congruence.
  split; [|eexists; exact E]. rewrite E. clear H E.
  assert (NM : ~ In "/"%char (lit m)).
  { unfold mode_code in Em. destruct (String.eqb tl _); inversion Em. cbn. intuition discriminate. }
  assert (NS : ~ In "/"%char (lit sc)).
  { apply scene_component in Es. cbn in Es. destruct Es as [<-|[<-|[<-|[<-|[]]]]]; cbn; intuition discriminate. }
  pose proof (strftime_no_slash s). pose proof (strftime_no_slash e). pose proof (strftime_no_slash c).
  intros K. rewrite !in_app_iff in K. set (A := In "/"%char (lit m)) in *. set (B := In "/"%char (lit sc)) in *. cbn [In lit list_ascii_of_string] in K. intuition discriminate.
Qed.

(** * Components of paths *)
Definition comps (s : pystr) : list pystr := filter (fun p => negb (trivial_part p)) (split_slash s).
Lemma split_nil : forall s, split_slash s <> [].
Proof. intros [|c s]; cbn; [discriminate|]. destruct (Ascii.eqb c "/"); [discriminate|]. destruct (split_slash s); discriminate. Qed.
Lemma split_app : forall a b, split_slash (a ++ "/"%char :: b) = split_slash a ++ split_slash b.
Proof.
  induction a as [|c a IH]; intros b; [reflexivity|]. cbn [app split_slash]. rewrite IH. destruct (Ascii.eqb c "/"); [reflexivity|].
  destruct (split_slash a) as [|h t] eqn:E; [destruct (split_nil a E)|]. reflexivity.
Qed.
Lemma split_plain : forall s, ~ In "/"%char s -> split_slash s = [s].
Proof.
  induction s as [|c s IH]; intros H; [reflexivity|]. cbn [split_slash]. rewrite aeqb_neq by (intros ->; apply H; left; auto). rewrite IH by (intros K; apply H; right; auto). reflexivity.
Qed.
Lemma comps_app : forall a b, comps (a ++ "/"%char :: b) = comps a ++ comps b.
Proof. intros a b. unfold comps. rewrite split_app. apply filter_app. Qed.
Lemma comps_plain : forall s, ~ In "/"%char s -> trivial_part s = false -> comps s = [s].
Proof. intros s H T. unfold comps. rewrite split_plain by auto. cbn. rewrite T. reflexivity. Qed.
Lemma upto_plain : forall s, ~ In "/"%char s -> upto_slash s = [].
Proof.
  induction s as [|c s IH]; intros H; [reflexivity|]. cbn [upto_slash]. rewrite IH by (intros K; apply H; right; auto). rewrite aeqb_neq by (intros ->; apply H; left; auto). reflexivity.
Qed.
Lemma upto_app : forall a b, ~ In "/"%char b -> upto_slash (a ++ "/"%char :: b) = a ++ ["/"%char].
Proof.
  induction a as [|c a IH]; intros b H; cbn [app upto_slash]; [rewrite upto_plain by auto; reflexivity|]. rewrite IH by auto. destruct (a ++ ["/"%char]) eqn:E; [destruct a; discriminate E|]. reflexivity.
Qed.
Lemma rstrip_spec : forall s, exists n, s = rstrip_slash s ++ repeat "/"%char n.
Proof.
  induction s as [|c s (n & IH)]; [exists 0; reflexivity|]. cbn [rstrip_slash]. destruct (rstrip_slash s) as [|h t] eqn:E.
  - destruct (Ascii.eqb c "/") eqn:C; [apply Ascii.eqb_eq in C; subst c; exists (S n); cbn in *; congruence|exists n; cbn in *; congruence].
  - exists n. cbn in *. congruence.
Qed.
Lemma comps_slashes : forall s n, comps (s ++ repeat "/"%char n) = comps s.
Proof.
  intros s n. revert s. induction n as [|n IH]; intros s; [rewrite app_nil_r; reflexivity|]. cbn [repeat]. rewrite comps_app. 
  specialize (IH []). cbn [app] in IH. rewrite IH. cbn. apply app_nil_r.
Qed.
Lemma norm_comps : forall s, snd (norm s) = comps s.
Proof. reflexivity. Qed.
(** The directory of a file named in the last part of a path. *)
Lemma dirname_norm : forall d name, ~ In "/"%char name -> norm (dirname (d ++ "/"%char :: name)) = norm (d ++ ["/"%char]) /\ dirname (d ++ "/"%char :: name) <> [].
Proof.
  intros d name H. unfold dirname. rewrite upto_app by auto. set (h := d ++ ["/"%char]). assert (HN : h <> []) by (unfold h; destruct d; discriminate).
  destruct (rstrip_slash h) as [|c t] eqn:E; [split; [reflexivity|exact HN]|]. split; [|discriminate]. destruct (rstrip_spec h) as (n & EH). rewrite E in EH.
  unfold norm. fold (comps (c :: t)). fold (comps h). rewrite EH at 2. rewrite comps_slashes. rewrite EH. reflexivity.
Qed.
Lemma norm_file : forall d name, ~ In "/"%char name -> trivial_part name = false -> norm (d ++ "/"%char :: name) = (fst (norm (d ++ ["/"%char])), snd (norm (d ++ ["/"%char])) ++ [name]).
Proof.
  intros d name H T. unfold norm. cbn [fst snd]. fold (comps (d ++ "/"%char :: name)). fold (comps (d ++ ["/"%char])). rewrite !comps_app. rewrite (comps_plain name) by auto. cbn [comps].
  replace (comps []) with (@nil pystr) by reflexivity. rewrite app_nil_r. destruct d; reflexivity.
Qed.
Lemma in_prefixes : forall q p, In q (prefixes p) -> fst q = fst p /\ exists rest, snd p = snd q ++ rest.
Proof.
  intros q p H. unfold prefixes in H. apply in_map_iff in H. destruct H as (k & <- & _). cbn. split; [reflexivity|]. exists (skipn k (snd p)). symmetry. apply firstn_skipn.
Qed.
Lemma prefixes_self : forall p, snd p <> [] -> In p (prefixes p).
Proof.
  intros [b l] H. cbn in H. unfold prefixes. cbn [fst snd]. apply in_map_iff. exists (List.length l). rewrite firstn_all. split; [reflexivity|]. apply in_seq. destruct l; [congruence|cbn; lia].
Qed.

(** * Filling in templates *)
Lemma month_abbr_name : forall m, (1 <= m <= 12)%Z -> exists name, month_name m name /\ month_abbr m = lit name.
Proof.
  intros m H. assert (m = 1 \/ m = 2 \/ m = 3 \/ m = 4 \/ m = 5 \/ m = 6 \/ m = 7 \/ m = 8 \/ m = 9 \/ m = 10 \/ m = 11 \/ m = 12)%Z as K by lia.
  repeat (destruct K as [->|K]; [eexists; split; [constructor|reflexivity]|]). subst m. eexists. split; [constructor|reflexivity].
Qed.
Lemma fmt_filled : forall outpath s e name, valid_from 1 s -> valid_from 1 e -> filled s e name outpath (format_path outpath s e name).
Proof.
  assert (D : forall d f, valid_from 1 d -> exists ts, Forall2 (directive_text d) f ts /\ fmt_time d f = List.concat ts).
  { intros d f V. induction f as [|x f (ts & IH & E)]; [exists []; split; [constructor|reflexivity]|]. exists (fmt_directive d x :: ts). split; [|cbn [List.concat]; rewrite <- E; reflexivity].
    constructor; [|exact IH]. destruct (civil_of d V) as [(_ & M & Y & _) CD]. cbn [c_month c_day c_year] in M, Y. destruct x; cbn [fmt_directive]; try (rewrite <- decimal_pad); try (destruct (month_abbr_name (fst (date_of d)) M) as (nm & MN & ->)); try constructor; econstructor; eauto. }
  intros outpath s e name Vs Ve. induction outpath as [|p outpath IH]; [constructor|]. unfold format_path. cbn [flat_map]. fold (format_path outpath s e name).
  destruct p as [t| |f|f]; [constructor; exact IH|constructor; exact IH| |].
  - destruct (D s f Vs) as (ts & F & ->). constructor; assumption.
  - destruct (D e f Ve) as (ts & F & ->). constructor; assumption.
Qed.
