(** C101: the command line of make_GLM_grids.py. *)
From Coq Require Import List ZArith QArith Bool Ascii String Lia Permutation.
From Verif Require Import Base FileName GridSetup CommandLine.
Import ListNotations.
Open Scope Z_scope.

(** * Specification *)
(** The documented options: what each sets, and from what. *)
Definition documented : list (string * action) :=
  [("-o", Store KText Outdir); ("--output_path", Store KText Outdir);
   ("--ctr_lat", Store KFloat CtrLat); ("--ctr_lon", Store KFloat CtrLon);
   ("--start", Store KText Start); ("--end", Store KText End_);
   ("--dx", Store KFloat Dx); ("--dy", Store KFloat Dy); ("--dt", Store KFloat Dt);
   ("--width", Store KFloat Width); ("--height", Store KFloat Height);
   ("--nevents", Store KInt MinEvents); ("--ngroups", Store KInt MinGroups);
   ("--fixed_grid", Flag FixedGrid true); ("--subdivide_grid", Store KInt Subdivide);
   ("--goes_position", Store KText Position); ("--goes_sector", Store KText Sector);
   ("--corner_points", Store KText CornerPoints); ("--split_events", Flag SplitEvents true);
   ("--ellipse", Store KInt EllipseRev); ("--float_output", Flag ScaleOffset false);
   ("--lma", Flag IsLma true)]%string.
Definition all_names : list string := ("-h" :: "--help" :: map fst documented)%string.
(** The documented defaults. *)
Definition default_of (d : dest) : value :=
  match d with
  | Outdir => VText (lit "./{dataset_name}")
  | CtrLat | CtrLon | Start | End_ | CornerPoints => VNone
  | Dx | Dy => VFloat 10 | Dt => VFloat 60 | Width | Height => VFloat 400
  | MinEvents | MinGroups | Subdivide => VInt 1 | EllipseRev => VInt (-1)
  | Position | Sector => VText (lit "none")
  | FixedGrid | SplitEvents | IsLma => VBool false | ScaleOffset => VBool true
  end.
Definition begins (s p : pystr) : Prop := exists r, s = p ++ r.
(** A name of an option, or the beginning of just one. *)
Definition means (s : pystr) (a : action) : Prop :=
  exists n, In (n, a) documented /\
    (s = lit n \/ begins s (lit "--") /\ begins (lit n) s /\ forall m, In m all_names -> begins (lit m) s -> m = n).
Definition digits (s : pystr) : Prop := Forall (fun c => is_digit c = true) s.
(** A negative number in plain decimals. *)
Definition negative (s : pystr) : Prop :=
  (exists a, s = "-"%char :: a /\ a <> [] /\ digits a) \/
  (exists a b, s = "-"%char :: a ++ "."%char :: b /\ b <> [] /\ digits a /\ digits b).
(** Texts that do not look like an option. *)
Definition plain (s : pystr) : Prop := (forall r, s <> "-"%char :: r) \/ s = lit "-" \/ negative s.

(** Ways to give an option: as two arguments, as one with an equals sign, -oPATH, and a flag. *)
Inductive given := Sep (s v : pystr) | Joined (s v : pystr) | Short (v : pystr) | Bare (s : pystr).
Definition args_of (g : given) : list pystr :=
  match g with
  | Sep s v => [s; v] | Joined s v => [s ++ "="%char :: v] | Short v => ["-"%char :: "o"%char :: v] | Bare s => [s]
  end.
Definition all_args (gs : list given) : list pystr := List.concat (map args_of gs).
Definition dest_eq_dec (a b : dest) : {a = b} + {a <> b}.
Proof. decide equality. Defined.
(** Value of an attribute after the changes [ch], the last one counts. *)
Definition last_value (ch : list (dest * value)) (d : dest) : value :=
  fold_left (fun v p => if dest_eq_dec (fst p) d then snd p else v) ch (default_of d).

Section Conv.
Variable py_float : pystr -> option Q.
Variable py_int : pystr -> option Z.
Definition reads (k : kind) (v : pystr) (x : value) : Prop :=
  match k with
  | KText => x = VText v
  | KFloat => exists q, py_float v = Some q /\ x = VFloat q
  | KInt => exists z, py_int v = Some z /\ x = VInt z
  end.
(** [g] gives attribute [fst c] the value [snd c]. *)
Definition gives (g : given) (c : dest * value) : Prop :=
  match g with
  | Sep s v => exists k, means s (Store k (fst c)) /\ plain v /\ reads k v (snd c)
  | Joined s v => exists k, means s (Store k (fst c)) /\ v <> lit "--" /\ reads k v (snd c)
  | Short v => fst c = Outdir /\ v <> [] /\ v <> lit "--" /\ (forall r, v <> "="%char :: r) /\ snd c = VText v
  | Bare s => exists b, means s (Flag (fst c) b) /\ snd c = VBool b
  end.

(** * Proofs *)
Lemma options_documented : options = (lit "-h", Help) :: (lit "--help", Help) :: map (fun p => (lit (fst p), snd p)) documented.
Proof. reflexivity. Qed.
Lemma str_eqb_eq : forall a b, str_eqb a b = true <-> a = b.
Proof. intros a b. unfold str_eqb. destruct (list_eq_dec ascii_dec a b); split; congruence. Qed.
Lemma str_eqb_neq : forall a b, a <> b -> str_eqb a b = false.
Proof. intros a b H. destruct (str_eqb a b) eqn:E; [apply str_eqb_eq in E; contradiction|reflexivity]. Qed.
Lemma starts_begins : forall p s, starts_with p s = true <-> begins s p.
Proof.
  induction p as [|a p IH]; intros s; cbn [starts_with].
  - split; [exists s; reflexivity|reflexivity].
  - destruct s as [|b s]; [split; [discriminate|intros (r & E); discriminate E]|]. rewrite andb_true_iff, Ascii.eqb_eq, IH. split.
    + intros (-> & r & ->). exists r. reflexivity.
    + intros (r & E). injection E as -> ->. split; [reflexivity|exists r; reflexivity].
Qed.
(** Names have no equals sign, begin with a dash and are not the two dashes. *)
Definition no_eq (s : pystr) : Prop := ~ In "="%char s.
Definition name_ok (s : pystr) : bool := forallb (fun c => negb (Ascii.eqb c "=")) s && negb (str_eqb s (lit "--")) && starts_with (lit "-") s && Nat.leb 2 (List.length s).
Lemma names_ok : forallb (fun o => name_ok (fst o)) options = true.
Proof. reflexivity. Qed.
Lemma name_facts : forall n a, In (n, a) options -> no_eq n /\ n <> lit "--" /\ exists c r, n = "-"%char :: c :: r.
Proof.
  intros n a H. pose proof names_ok as A. rewrite forallb_forall in A. specialize (A _ H). cbn [fst] in A. unfold name_ok in A.
  rewrite !andb_true_iff in A. destruct A as (((A1 & A2) & A3) & A4). split; [|split].
  - intros K. rewrite forallb_forall in A1. specialize (A1 _ K). cbn in A1. discriminate A1.
  - intros ->. cbn in A2. discriminate A2.
  - apply starts_begins in A3. destruct A3 as (r & ->). destruct r as [|c r]; [cbn in A4; discriminate|]. exists c, r. reflexivity.
Qed.
Lemma split_eq_none : forall s, no_eq s -> split_eq s = None.
Proof.
  induction s as [|c s IH]; intros H; [reflexivity|]. cbn [split_eq]. destruct (Ascii.eqb_spec c "="); [subst; exfalso; apply H; left; reflexivity|].
  rewrite IH; [reflexivity|]. intros K. apply H. right. exact K.
Qed.
Lemma split_eq_app : forall s v, no_eq s -> split_eq (s ++ "="%char :: v) = Some (s, v).
Proof.
  induction s as [|c s IH]; intros v H; [reflexivity|]. cbn [app split_eq]. destruct (Ascii.eqb_spec c "="); [subst; exfalso; apply H; left; reflexivity|].
  rewrite IH; [reflexivity|]. intros K. apply H. right. exact K.
Qed.
Lemma find_unique : forall {A} (l : list (pystr * A)) n a, NoDup (map fst l) -> In (n, a) l -> find (fun o => str_eqb (fst o) n) l = Some (n, a).
Proof.
  induction l as [|(m, b) l IH]; intros n a ND H; [destruct H|]. cbn [find fst]. cbn [map fst] in ND. inversion ND as [|? ? N1 N2 Q]. subst.
  destruct H as [E|H].
  - injection E as -> ->. rewrite (proj2 (str_eqb_eq n n) eq_refl). reflexivity.
  - rewrite str_eqb_neq; [apply IH; assumption|]. intros ->. apply N1. apply in_map_iff. exists (n, a). split; [reflexivity|exact H].
Qed.
Fixpoint distinct (l : list pystr) : bool := match l with [] => true | a :: r => negb (existsb (str_eqb a) r) && distinct r end.
Lemma distinct_nodup : forall l, distinct l = true -> NoDup l.
Proof.
  induction l as [|a l IH]; intros H; [constructor|]. cbn [distinct] in H. apply andb_true_iff in H. destruct H as (H1 & H2). constructor; [|apply IH; exact H2].
  intros K. apply negb_true_iff in H1. assert (existsb (str_eqb a) l = true); [|congruence]. apply existsb_exists. exists a. split; [exact K|]. apply str_eqb_eq. reflexivity.
Qed.
Lemma options_nodup : NoDup (map fst options).
Proof. apply distinct_nodup. reflexivity. Qed.
Lemma find_option_in : forall n a, In (n, a) options -> find_option n = Some a.
Proof. intros n a H. unfold find_option. rewrite (find_unique options n a options_nodup H). reflexivity. Qed.
Lemma find_option_none : forall s, (forall a, ~ In (s, a) options) -> find_option s = None.
Proof.
  intros s H. unfold find_option. destruct (find (fun o => str_eqb (fst o) s) options) as [(n, a)|] eqn:E; [|reflexivity].
  apply find_some in E. destruct E as (I & Q). apply str_eqb_eq in Q. cbn in Q. subst n. exfalso. exact (H a I).
Qed.
Lemma filter_unique : forall {A} (P : pystr -> bool) (l : list (pystr * A)) n a, NoDup (map fst l) -> In (n, a) l -> P n = true ->
  (forall m b, In (m, b) l -> P m = true -> m = n) -> filter (fun o => P (fst o)) l = [(n, a)].
Proof.
  intros A P. induction l as [|(m, b) l IH]; intros n a ND H PN U; [destruct H|]. cbn [filter fst]. cbn [map fst] in ND. inversion ND as [|? ? N1 N2 Q]. subst.
  destruct H as [E|H].
  - injection E as -> ->. rewrite PN. f_equal.
    assert (Z : forall l', (forall o, In o l' -> In o l) -> filter (fun o => P (fst o)) l' = []).
    { induction l' as [|(m', b') l' IHl]; intros S; [reflexivity|]. cbn [filter fst]. destruct (P m') eqn:E.
      - exfalso. assert (m' = n) by (apply (U m' b'); [right; apply S; left; reflexivity|exact E]). subst m'. apply N1. apply in_map_iff. exists (n, b'). split; [reflexivity|]. apply S. left. reflexivity.
      - apply IHl. intros o O. apply S. right. exact O. }
    apply Z. auto.
  - destruct (P m) eqn:E.
    + exfalso. assert (m = n) by (apply (U m b); [left; reflexivity|exact E]). subst m. apply N1. apply in_map_iff. exists (n, a). split; [reflexivity|exact H].
    + apply IH; try assumption. intros m' b' I'. apply (U m' b'). right. exact I'.
Qed.
Lemma doc_in : forall n a, In (n, a) documented -> In (lit n, a) options.
Proof. intros n a H. rewrite options_documented. right. right. apply in_map_iff. exists (n, a). split; [reflexivity|exact H]. Qed.
Lemma lit_inj : forall a b, lit a = lit b -> a = b.
Proof. intros a b H. unfold lit in H. rewrite <- (string_of_list_ascii_of_string a), <- (string_of_list_ascii_of_string b), H. reflexivity. Qed.
Lemma option_name : forall n a, In (n, a) options -> exists m, In m all_names /\ n = lit m.
Proof.
  intros n a H. rewrite options_documented in H. destruct H as [E|[E|H]].
  - injection E as <- _. exists "-h"%string. split; [left; reflexivity|reflexivity].
  - injection E as <- _. exists "--help"%string. split; [right; left; reflexivity|reflexivity].
  - apply in_map_iff in H. destruct H as ((m, b) & E & I). cbn in E. injection E as <- _. exists m. split; [|reflexivity]. right. right. apply in_map_iff. exists (m, b). split; [reflexivity|exact I].
Qed.
Lemma begins_noeq : forall s p, begins s p -> no_eq s -> no_eq p.
Proof. intros s p (r & ->) H K. apply H. apply in_or_app. left. exact K. Qed.

(** Facts about a text that means an option. *)
Lemma means_facts : forall s a, means s a -> no_eq s /\ s <> lit "--" /\ exists c r, s = "-"%char :: c :: r.
Proof.
  intros s a (n & I & [->|(B & BN & U)]); [exact (name_facts _ _ (doc_in n a I))|].
  destruct (name_facts _ _ (doc_in n a I)) as (NE & _ & _). split; [exact (begins_noeq _ _ BN NE)|]. destruct B as (r & ->). split.
  - intros E. assert (H1 : "--dx"%string = n) by (apply U; [right; right; apply in_map_iff; eexists; split; [|apply nth_In with (n := 6%nat) (d := (""%string, Help)); cbn; lia]; reflexivity|rewrite E; exists (lit "dx"); reflexivity]).
    assert (H2 : "--dy"%string = n) by (apply U; [right; right; apply in_map_iff; eexists; split; [|apply nth_In with (n := 7%nat) (d := (""%string, Help)); cbn; lia]; reflexivity|rewrite E; exists (lit "dy"); reflexivity]).
    congruence.
  - exists "-"%char, r. reflexivity.
Qed.
Lemma means_tuples : forall s a n e, In (n, a) documented -> begins s (lit "--") -> begins (lit n) s -> (forall m, In m all_names -> begins (lit m) s -> m = n) ->
  map (fun o : pystr * action => (snd o, fst o, e)) (filter (fun o => starts_with s (fst o)) options) = [(a, lit n, e : option pystr)].
Proof.
  intros s a n e I B BN U. rewrite (filter_unique (starts_with s) options (lit n) a options_nodup (doc_in n a I)); [reflexivity|apply starts_begins; exact BN|].
  intros m b J P. destruct (option_name m b J) as (m' & M & ->). f_equal. apply U; [exact M|]. apply starts_begins. exact P.
Qed.
(** The option alone in an argument, and with an equals sign and a value. *)
Lemma parse_means : forall s a, means s a -> exists name, parse_optional s = Some (TOpt (Some a) name None).
Proof.
  intros s a M. destruct (means_facts s a M) as (NE & ND & c & r & ES). destruct M as (n & I & C).
  destruct (find_option s) as [b|] eqn:F.
  - exists s. rewrite ES at 1. unfold parse_optional. cbn [negb Ascii.eqb Bool.eqb]. rewrite <- ES, F.
    assert (E : b = a); [|subst; reflexivity].
    destruct C as [->|(B & BN & U)]; [rewrite (find_option_in _ _ (doc_in n a I)) in F; congruence|].
    unfold find_option in F. destruct (find (fun o => str_eqb (fst o) s) options) as [(m, b')|] eqn:Q; [|discriminate F]. injection F as <-.
    apply find_some in Q. destruct Q as (J & Q). apply str_eqb_eq in Q. cbn [fst] in Q. subst m. cbn [snd].
    destruct (option_name _ _ J) as (m & M & E). assert (m = n) by (apply U; [exact M|rewrite <- E; exists []; rewrite app_nil_r; reflexivity]). subst m.
    pose proof (find_option_in _ _ J) as F1. rewrite E in F1. rewrite (find_option_in _ _ (doc_in n a I)) in F1. congruence.
  - destruct C as [->|(B & BN & U)]; [rewrite (find_option_in _ _ (doc_in n a I)) in F; discriminate F|].
    exists (lit n). rewrite ES at 1. unfold parse_optional. cbn [negb Ascii.eqb Bool.eqb]. rewrite <- ES, F. rewrite (split_eq_none s NE).
    cbn [List.length Nat.eqb]. destruct B as (r' & B). unfold option_tuples. rewrite B. change (lit "--" ++ r') with ("-"%char :: "-"%char :: r'). cbn [Ascii.eqb Bool.eqb].
    change ("-"%char :: "-"%char :: r') with (lit "--" ++ r'). rewrite <- B, (split_eq_none s NE).
    rewrite (means_tuples s a n None I (ex_intro _ r' B) BN U). reflexivity.
Qed.
Lemma parse_joined : forall s a v, means s a -> exists name, parse_optional (s ++ "="%char :: v) = Some (TOpt (Some a) name (Some v)).
Proof.
  intros s a v M. destruct (means_facts s a M) as (NE & ND & c & r & ES). destruct M as (n & I & C).
  assert (F0 : find_option (s ++ "="%char :: v) = None).
  { apply find_option_none. intros b J. destruct (name_facts _ _ J) as (K & _). apply K. apply in_or_app. right. left. reflexivity. }
  assert (SE : split_eq (s ++ "="%char :: v) = Some (s, v)) by (apply split_eq_app; exact NE).
  assert (P : parse_optional (s ++ "="%char :: v) =
    match (match find_option s with Some a => Some (TOpt (Some a) s (Some v)) | None => None end) with
    | Some t => Some t
    | None => match option_tuples (s ++ "="%char :: v) with
              | [(a, o, e)] => Some (TOpt (Some a) o e)
              | _ :: _ :: _ => None
              | [] => if negative_number (s ++ "="%char :: v) then Some TArg else if existsb (Ascii.eqb " ") (s ++ "="%char :: v) then Some TArg else Some (TOpt None (s ++ "="%char :: v) None)
              end
    end).
  { rewrite ES in *. cbn [app] in *. unfold parse_optional. cbn [negb Ascii.eqb Bool.eqb]. rewrite F0, SE. cbn [List.length Nat.eqb]. reflexivity. }
  rewrite P. clear P. destruct (find_option s) as [b|] eqn:F.
  - exists s. assert (E : b = a); [|subst; reflexivity].
    destruct C as [->|(B & BN & U)]; [rewrite (find_option_in _ _ (doc_in n a I)) in F; congruence|].
    unfold find_option in F. destruct (find (fun o => str_eqb (fst o) s) options) as [(m, b')|] eqn:Q; [|discriminate F]. injection F as <-.
    apply find_some in Q. destruct Q as (J & Q). apply str_eqb_eq in Q. cbn [fst] in Q. subst m. cbn [snd].
    destruct (option_name _ _ J) as (m & M & E). assert (m = n) by (apply U; [exact M|rewrite <- E; exists []; rewrite app_nil_r; reflexivity]). subst m.
    pose proof (find_option_in _ _ J) as F1. rewrite E in F1. rewrite (find_option_in _ _ (doc_in n a I)) in F1. congruence.
  - destruct C as [->|(B & BN & U)]; [rewrite (find_option_in _ _ (doc_in n a I)) in F; discriminate F|].
    exists (lit n). assert (T : option_tuples (s ++ "="%char :: v) = [(a, lit n, Some v)]).
    { unfold option_tuples. assert (B' := B). destruct B' as (r' & B').
      rewrite B' at 1. change ((lit "--" ++ r') ++ "="%char :: v) with ("-"%char :: "-"%char :: r' ++ "="%char :: v). cbn [Ascii.eqb Bool.eqb]. rewrite SE.
      rewrite (means_tuples s a n (Some v) I B BN U). reflexivity. }
    rewrite T. reflexivity.
Qed.
(** Texts that are no options. *)
Lemma digit_not : forall c, is_digit c = true -> c <> "-"%char /\ c <> "."%char /\ c <> "h"%char /\ c <> "o"%char.
Proof. intros c H. repeat split; intros ->; discriminate H. Qed.
Lemma after_minus_digits : forall a, a <> [] -> digits a -> after_minus a = true.
Proof.
  induction a as [|c a IH]; intros N D; [contradiction|]. inversion D as [|? ? D1 D2]. subst. cbn [after_minus]. destruct (digit_not c D1) as (_ & ND & _).
  destruct (Ascii.eqb_spec c "."); [contradiction|]. rewrite D1. destruct a; [reflexivity|]. rewrite IH; [reflexivity|discriminate|exact D2].
Qed.
Lemma after_minus_point : forall a b, b <> [] -> digits a -> digits b -> after_minus (a ++ "."%char :: b) = true.
Proof.
  induction a as [|c a IH]; intros b N DA DB.
  - cbn [app after_minus Ascii.eqb Bool.eqb]. rewrite (proj2 (forallb_forall is_digit b)); [destruct b; [contradiction|reflexivity]|]. apply Forall_forall. exact DB.
  - inversion DA as [|? ? D1 D2]. subst. cbn [app after_minus]. destruct (digit_not c D1) as (_ & ND & _). destruct (Ascii.eqb_spec c "."); [contradiction|]. rewrite D1, (IH b N D2 DB).
    apply orb_true_r.
Qed.
Lemma negative_matches : forall s, negative s -> negative_number s = true.
Proof.
  intros s [(a & -> & N & D)|(a & b & -> & N & DA & DB)]; cbn [negative_number Ascii.eqb Bool.eqb andb]; [apply after_minus_digits|apply after_minus_point]; assumption.
Qed.
(** One dash and a letter other than the two short options. *)
Lemma short_tuples : forall c r, c <> "-"%char -> c <> "h"%char -> c <> "o"%char -> option_tuples ("-"%char :: c :: r) = [] /\ find_option ("-"%char :: c :: r) = None.
Proof.
  intros c r N1 N2 N3. assert (K : forall n a, In (n, a) options -> n <> ["-"%char; c] /\ ~ begins n ("-"%char :: c :: r)).
  { intros n a H. assert (G : forallb (fun o => match fst o with "-"%char :: x :: _ => Ascii.eqb x "-" || Ascii.eqb x "h" || Ascii.eqb x "o" | _ => false end) options = true) by reflexivity.
    rewrite forallb_forall in G. specialize (G _ H). cbn [fst] in G. split.
    - intros ->. rewrite !orb_true_iff, !Ascii.eqb_eq in G. tauto.
    - intros (q & ->). cbn [app] in G. rewrite !orb_true_iff, !Ascii.eqb_eq in G. tauto. }
  split.
  - unfold option_tuples. destruct (Ascii.eqb_spec c "-"); [contradiction|]. cbn [firstn].
    assert (Z : forall l, (forall o, In o l -> In o options) -> flat_map (fun o : pystr * action => if str_eqb (fst o) ["-"%char; c] then [(snd o, fst o, Some r)] else if starts_with ("-"%char :: c :: r) (fst o) then [(snd o, fst o, None)] else []) l = []).
    { induction l as [|(m, b) l IH]; intros S; [reflexivity|]. cbn [flat_map fst]. destruct (K m b (S _ (or_introl eq_refl))) as (K1 & K2). rewrite (str_eqb_neq _ _ K1).
      destruct (starts_with ("-"%char :: c :: r) m) eqn:E; [apply starts_begins in E; contradiction|]. cbn [app]. apply IH. intros o O. apply S. right. exact O. }
    apply Z. auto.
  - apply find_option_none. intros a H. apply (proj2 (K _ a H)). exists []. rewrite app_nil_r. reflexivity.
Qed.
Lemma split_short : forall c r, c <> "="%char -> c <> "-"%char -> c <> "h"%char -> c <> "o"%char -> match split_eq ("-"%char :: c :: r) with Some (o, e) => find_option o = None | None => True end.
Proof.
  intros c r N0 N1 N2 N3. cbn [split_eq Ascii.eqb Bool.eqb]. destruct (Ascii.eqb_spec c "="); [contradiction|]. destruct (split_eq r) as [(a, b)|]; [|exact I].
  apply short_tuples; assumption.
Qed.
Lemma parse_short : forall c r, c <> "-"%char -> c <> "h"%char -> c <> "o"%char ->
  parse_optional ("-"%char :: c :: r) = if negative_number ("-"%char :: c :: r) then Some TArg else if existsb (Ascii.eqb " ") ("-"%char :: c :: r) then Some TArg else Some (TOpt None ("-"%char :: c :: r) None).
Proof.
  intros c r N1 N2 N3. destruct (short_tuples c r N1 N2 N3) as (T & F). unfold parse_optional. cbn [negb Ascii.eqb Bool.eqb]. rewrite F, T. cbn [List.length Nat.eqb].
  assert (D : match split_eq ("-"%char :: c :: r) with Some (o, e) => find_option o = None | None => True end).
  { destruct (Ascii.eqb_spec c "=") as [->|N]; [reflexivity|apply split_short; assumption]. }
  destruct (split_eq ("-"%char :: c :: r)) as [(o, e)|]; [rewrite D|]; reflexivity.
Qed.
Lemma parse_plain : forall s, plain s -> parse_optional s = Some TArg /\ s <> lit "--".
Proof.
  intros s [H|[->|H]].
  - destruct s as [|c s]; [split; [reflexivity|discriminate]|]. split; [|intros E; apply (H (lit "-")); exact E].
    unfold parse_optional. destruct (Ascii.eqb_spec c "-") as [->|N]; [exfalso; apply (H s); reflexivity|]. reflexivity.
  - split; [reflexivity|discriminate].
  - pose proof (negative_matches s H) as NM. destruct H as [(a & -> & N & D)|(a & b & -> & N & DA & DB)].
    + destruct a as [|c a]; [contradiction|]. inversion D as [|? ? D1 D2]. subst. destruct (digit_not c D1) as (X1 & _ & X2 & X3).
      rewrite parse_short by assumption. rewrite NM. split; [reflexivity|]. intros E. injection E as E _. contradiction.
    + destruct a as [|c a]; cbn [app].
      * rewrite parse_short by discriminate. cbn [app] in NM. rewrite NM. split; [reflexivity|discriminate].
      * inversion DA as [|? ? D1 D2]. subst. destruct (digit_not c D1) as (X1 & _ & X2 & X3). cbn [app] in NM.
        rewrite parse_short by assumption. rewrite NM. split; [reflexivity|]. intros E. injection E as E _. contradiction.
Qed.

(** ** Runs over the arguments of an option *)
Notation run := (run py_float py_int).
Definition takes_effect (g : given) (c : dest * value) : Prop := exists toks,
  (forall rest ts, classify rest = Some ts -> classify (args_of g ++ rest) = Some (toks ++ ts)) /\
  (forall rest, classify rest = None -> classify (args_of g ++ rest) = None) /\
  (forall ts p ex ns, run (toks ++ ts) p ex ns = run ts (option_met p) ex (set_attr ns (fst c) (snd c))).
Lemma reads_convert : forall k v x, reads k v x -> convert py_float py_int k v = Some x.
Proof. intros [| |] v x H; cbn [reads convert] in *; [subst; reflexivity| |]; destruct H as (q & E & ->); rewrite E; reflexivity. Qed.
Lemma classify_one : forall s t rest, s <> lit "--" -> parse_optional s = Some t ->
  classify (s :: rest) = match classify rest with Some ts => Some ((s, t) :: ts) | None => None end.
Proof. intros s t rest N P. cbn [classify]. rewrite (str_eqb_neq _ _ N), P. reflexivity. Qed.
Lemma given_effect : forall g c, gives g c -> takes_effect g c.
Proof.
  intros [s v|s v|v|s] (d, x) H; cbn [gives fst snd] in H.
  - destruct H as (k & M & PV & R). destruct (parse_means s _ M) as (name & PS). destruct (parse_plain v PV) as (PV' & NV).
    destruct (means_facts s _ M) as (_ & NS & _). exists [(s, TOpt (Some (Store k d)) name None); (v, TArg)]. split; [|split].
    + intros rest ts C. cbn [args_of app]. rewrite (classify_one _ _ _ NS PS), (classify_one _ _ _ NV PV'), C. reflexivity.
    + intros rest C. cbn [args_of app]. rewrite (classify_one _ _ _ NS PS), (classify_one _ _ _ NV PV'), C. reflexivity.
    + intros ts p ex ns. cbn [app CommandLine.run fst snd]. rewrite (str_eqb_neq _ _ NV), (reads_convert _ _ _ R). reflexivity.
  - destruct H as (k & M & NV & R). destruct (parse_joined s _ v M) as (name & PS).
    assert (NS : s ++ "="%char :: v <> lit "--").
    { intros E. assert (In "="%char (lit "--")) as [K|[K|[]]]; [rewrite <- E; apply in_or_app; right; left; reflexivity|discriminate K|discriminate K]. }
    exists [(s ++ "="%char :: v, TOpt (Some (Store k d)) name (Some v))]. split; [|split].
    + intros rest ts C. cbn [args_of app]. rewrite (classify_one _ _ _ NS PS), C. reflexivity.
    + intros rest C. cbn [args_of app]. rewrite (classify_one _ _ _ NS PS), C. reflexivity.
    + intros ts p ex ns. cbn [app CommandLine.run fst snd]. rewrite (str_eqb_neq _ _ NV), (reads_convert _ _ _ R). reflexivity.
  - destruct H as (-> & N0 & NV & NE & ->). destruct v as [|a v]; [contradiction|].
    assert (NS : "-"%char :: "o"%char :: a :: v <> lit "--") by discriminate.
    assert (PS : parse_optional ("-"%char :: "o"%char :: a :: v) = Some (TOpt (Some (Store KText Outdir)) (lit "-o") (Some (a :: v)))).
    { assert (K : forall n b, In (n, b) options -> ~ begins n ("-"%char :: "o"%char :: a :: v)).
      { intros n b J. assert (G : forallb (fun o => match fst o with "-"%char :: "o"%char :: _ :: _ => false | _ => true end) options = true) by reflexivity.
        rewrite forallb_forall in G. specialize (G _ J). cbn [fst] in G. intros (q & ->). cbn [app] in G. discriminate G. }
      assert (F : forall r, find_option ("-"%char :: "o"%char :: a :: r) = None).
      { intros r. apply find_option_none. intros b J. assert (G : forallb (fun o => match fst o with "-"%char :: "o"%char :: _ :: _ => false | _ => true end) options = true) by reflexivity.
        rewrite forallb_forall in G. specialize (G _ J). discriminate G. }
      unfold parse_optional. cbn [negb Ascii.eqb Bool.eqb List.length Nat.eqb]. rewrite F.
      assert (SE : match split_eq ("-"%char :: "o"%char :: a :: v) with Some (o, e) => find_option o = None | None => True end).
      { cbn [split_eq Ascii.eqb Bool.eqb]. destruct (Ascii.eqb_spec a "=") as [->|N]; [exfalso; apply (NE v); reflexivity|].
        destruct (split_eq v) as [(y, z)|]; [apply F|exact I]. }
      assert (T : option_tuples ("-"%char :: "o"%char :: a :: v) = [(Store KText Outdir, lit "-o", Some (a :: v))]).
      { unfold option_tuples. cbn [Ascii.eqb Bool.eqb firstn].
        assert (Z : forall l, (forall o, In o l -> In o options) -> flat_map (fun o : pystr * action => if str_eqb (fst o) ["-"%char; "o"%char] then [(snd o, fst o, Some (a :: v))] else if starts_with ("-"%char :: "o"%char :: a :: v) (fst o) then [(snd o, fst o, None)] else []) l
          = map (fun o => (snd o, fst o, Some (a :: v))) (filter (fun o => str_eqb (fst o) ["-"%char; "o"%char]) l)).
        { induction l as [|(m, b) l IH]; intros S; [reflexivity|]. cbn [flat_map filter fst]. destruct (str_eqb m ["-"%char; "o"%char]).
          - cbn [app map fst snd]. rewrite IH; [reflexivity|]. intros o O. apply S. right. exact O.
          - destruct (starts_with ("-"%char :: "o"%char :: a :: v) m) eqn:E; [apply starts_begins in E; exfalso; exact (K m b (S _ (or_introl eq_refl)) E)|].
            cbn [app]. apply IH. intros o O. apply S. right. exact O. }
        rewrite Z by auto. reflexivity. }
      rewrite T. destruct (split_eq ("-"%char :: "o"%char :: a :: v)) as [(o, e)|]; [rewrite SE|]; reflexivity. }
    exists [("-"%char :: "o"%char :: a :: v, TOpt (Some (Store KText Outdir)) (lit "-o") (Some (a :: v)))]. split; [|split].
    + intros rest ts C. cbn [args_of app]. rewrite (classify_one _ _ _ NS PS), C. reflexivity.
    + intros rest C. cbn [args_of app]. rewrite (classify_one _ _ _ NS PS), C. reflexivity.
    + intros ts p ex ns. cbn [app CommandLine.run fst snd]. rewrite (str_eqb_neq _ _ NV). reflexivity.
  - destruct H as (b & M & ->). destruct (parse_means s _ M) as (name & PS). destruct (means_facts s _ M) as (_ & NS & _).
    exists [(s, TOpt (Some (Flag d b)) name None)]. split; [|split].
    + intros rest ts C. cbn [args_of app]. rewrite (classify_one _ _ _ NS PS), C. reflexivity.
    + intros rest C. cbn [args_of app]. rewrite (classify_one _ _ _ NS PS), C. reflexivity.
    + intros ts p ex ns. reflexivity.
Qed.
Definition set_all (ns : list (dest * value)) (ch : list (dest * value)) : list (dest * value) := fold_left (fun n c => set_attr n (fst c) (snd c)) ch ns.
Definition met_all (gs : list given) (p : positional) : positional := match gs with [] => p | _ => option_met p end.
Lemma met_twice : forall gs p, met_all gs (option_met p) = option_met p.
Proof. intros [|g gs] [|l|l]; reflexivity. Qed.
Lemma all_effect : forall gs ch, Forall2 gives gs ch -> exists toks,
  (forall rest ts, classify rest = Some ts -> classify (all_args gs ++ rest) = Some (toks ++ ts)) /\
  (forall rest, classify rest = None -> classify (all_args gs ++ rest) = None) /\
  (forall ts p ex ns, run (toks ++ ts) p ex ns = run ts (met_all gs p) ex (set_all ns ch)).
Proof.
  induction 1 as [|g c gs ch G F IH].
  - exists []. split; [|split]; [intros rest ts C; exact C|intros rest C; exact C|reflexivity].
  - destruct (given_effect g c G) as (t1 & A1 & B1 & C1). destruct IH as (t2 & A2 & B2 & C2). exists (t1 ++ t2). split; [|split].
    + intros rest ts C. change (all_args (g :: gs)) with (args_of g ++ all_args gs). rewrite <- app_assoc. rewrite (A1 _ _ (A2 _ _ C)). rewrite app_assoc. reflexivity.
    + intros rest C. change (all_args (g :: gs)) with (args_of g ++ all_args gs). rewrite <- app_assoc. apply B1. apply B2. exact C.
    + intros ts p ex ns. rewrite <- app_assoc, C1, C2. cbn [met_all set_all fold_left]. rewrite met_twice. reflexivity.
Qed.
Lemma classify_files : forall files rest, Forall plain files -> classify (files ++ rest) = match classify rest with Some ts => Some (map (fun s => (s, TArg)) files ++ ts) | None => None end.
Proof.
  induction files as [|s files IH]; intros rest F; [cbn [app map]; destruct (classify rest); reflexivity|]. inversion F as [|? ? P Q]. subst. destruct (parse_plain s P) as (PA & N).
  cbn [app]. rewrite (classify_one _ _ _ N PA), (IH rest Q). destruct (classify rest); reflexivity.
Qed.
Lemma run_taking : forall files ts l ex ns, run (map (fun s => (s, TArg)) files ++ ts) (Taking l) ex ns = run ts (Taking (l ++ files)) ex ns.
Proof.
  induction files as [|s files IH]; intros ts l ex ns; [rewrite app_nil_r; reflexivity|]. cbn [map app CommandLine.run positional_arg]. rewrite IH, <- app_assoc. reflexivity.
Qed.
Lemma run_files : forall files ts ex ns, run (map (fun s => (s, TArg)) files ++ ts) Pending ex ns = run ts (match files with [] => Pending | _ => Taking files end) ex ns.
Proof. intros [|s files] ts ex ns; [reflexivity|]. cbn [map app CommandLine.run positional_arg]. rewrite run_taking. reflexivity. Qed.
Lemma remove_plain : forall files, Forall plain files -> remove_dashes files = files.
Proof.
  induction 1 as [|s files P F IH]; [reflexivity|]. cbn [remove_dashes]. rewrite (str_eqb_neq _ _ (proj2 (parse_plain s P))), IH. reflexivity.
Qed.
(** Attributes after all changes. *)
Lemma dest_eqb_eq : forall a b, dest_eqb a b = true <-> a = b.
Proof. intros a b. destruct a, b; cbn; split; congruence. Qed.
Lemma get_set : forall ns d v e, get_attr (set_attr ns d v) e = if dest_eqb d e then (if existsb (fun p => dest_eqb (fst p) e) ns then v else VNone) else get_attr ns e.
Proof.
  induction ns as [|(x, y) ns IH]; intros d v e; [cbn; destruct (dest_eqb d e); reflexivity|]. unfold set_attr, get_attr in *. cbn [map find existsb fst]. specialize (IH d v e).
  destruct (dest_eqb x d) eqn:E1.
  - apply dest_eqb_eq in E1. subst x. cbn [find fst]. destruct (dest_eqb d e) eqn:E2; cbn [orb]; [reflexivity|exact IH].
  - cbn [find fst]. destruct (dest_eqb x e) eqn:E2; cbn [orb].
    + apply dest_eqb_eq in E2. subst x. destruct (dest_eqb d e) eqn:E3; [apply dest_eqb_eq in E3; subst; rewrite (proj2 (dest_eqb_eq e e) eq_refl) in E1; discriminate E1|reflexivity].
    + exact IH.
Qed.
Lemma set_fst : forall (ns : list (dest * value)) d v, map fst (set_attr ns d v) = map fst ns.
Proof.
  induction ns as [|(x, y) ns IH]; intros d v; [reflexivity|]. cbn. f_equal; [|apply IH]. destruct (dest_eqb x d) eqn:E; [apply dest_eqb_eq in E; subst; reflexivity|reflexivity].
Qed.
Lemma set_all_fst : forall ch (ns : list (dest * value)), map fst (set_all ns ch) = map fst ns.
Proof. induction ch as [|c ch IH]; intros ns; [reflexivity|]. cbn [set_all fold_left]. unfold set_all in IH. rewrite IH. apply set_fst. Qed.
Lemma has_all : forall (ns : list (dest * value)) e, map fst ns = map fst defaults -> existsb (fun p => dest_eqb (fst p) e) ns = true.
Proof.
  intros ns e H. apply existsb_exists. assert (I : In e (map fst ns)) by (rewrite H; destruct e; cbn; tauto). apply in_map_iff in I. destruct I as ((x, y) & E & I). cbn in E. subst x.
  exists (e, y). split; [exact I|]. apply dest_eqb_eq. reflexivity.
Qed.
Lemma get_all : forall ch (ns : list (dest * value)) e, map fst ns = map fst defaults ->
  get_attr (set_all ns ch) e = fold_left (fun v p => if dest_eq_dec (fst p) e then snd p else v) ch (get_attr ns e).
Proof.
  induction ch as [|(d, v) ch IH]; intros ns e H; [reflexivity|]. cbn [set_all fold_left fst snd]. unfold set_all in IH. rewrite IH by (rewrite set_fst; exact H). f_equal. rewrite get_set, (has_all ns e H).
  destruct (dest_eq_dec d e) as [->|N]; [rewrite (proj2 (dest_eqb_eq e e) eq_refl); reflexivity|]. destruct (dest_eqb d e) eqn:E; [apply dest_eqb_eq in E; contradiction|reflexivity].
Qed.
Lemma get_default : forall e, get_attr defaults e = default_of e.
Proof. destruct e; reflexivity. Qed.
Lemma same_namespace : forall a b : list (dest * value), map fst a = map fst b -> NoDup (map fst a) -> (forall e, get_attr a e = get_attr b e) -> a = b.
Proof.
  induction a as [|(x, y) a IH]; intros [|(z, w) b] H ND G; try discriminate H; [reflexivity|]. cbn [map fst] in H, ND. injection H as H1 H2. subst z. inversion ND as [|? ? N1 N2 Q]. subst.
  assert (E : y = w). { specialize (G x). unfold get_attr in G. cbn [find fst] in G. rewrite (proj2 (dest_eqb_eq x x) eq_refl) in G. exact G. }
  subst w. f_equal. apply IH; [exact H2|exact N2|]. intros e. specialize (G e). unfold get_attr in *. cbn [find fst] in G. destruct (dest_eqb x e) eqn:E; [|exact G].
  apply dest_eqb_eq in E. subst e. assert (Z : forall l : list (dest * value), ~ In x (map fst l) -> find (fun p => dest_eqb (fst p) x) l = None).
  { intros l N. destruct (find (fun p => dest_eqb (fst p) x) l) as [(u, t)|] eqn:F; [|reflexivity]. apply find_some in F. destruct F as (F1 & F2). apply dest_eqb_eq in F2. cbn in F2. subst u.
    exfalso. apply N. apply in_map_iff. exists (x, t). split; [reflexivity|exact F1]. }
  rewrite (Z a N1), (Z b) by (rewrite <- H2; exact N1). reflexivity.
Qed.
Lemma dests_nodup : NoDup (map fst defaults).
Proof. cbn. repeat (constructor; [cbn; intuition discriminate|]). constructor. Qed.

(** ** Theorems *)
(** Options before and after the file names: the file names come in order, every attribute is
    what the last option for it gives, or the documented default. *)
Theorem C101_options_and_files : forall pre files post ch, Forall2 gives (pre ++ post) ch -> Forall plain files ->
  exists ns, parse_args py_float py_int (all_args pre ++ files ++ all_args post) = Parsed files ns /\ map fst ns = map fst defaults /\ forall d, get_attr ns d = last_value ch d.
Proof.
  intros pre files post ch G F. apply Forall2_app_inv_l in G. destruct G as (c1 & c2 & G1 & G2 & ->).
  destruct (all_effect pre c1 G1) as (t1 & A1 & _ & R1). destruct (all_effect post c2 G2) as (t2 & A2 & _ & R2).
  exists (set_all (set_all defaults c1) c2). split; [|split].
  - unfold parse_args. specialize (A2 [] [] eq_refl). rewrite !app_nil_r in A2.
    rewrite (A1 _ _ (eq_trans (classify_files files (all_args post) F) (f_equal (fun o => match o with Some ts => Some (map (fun s => (s, TArg)) files ++ ts) | None => None end) A2))).
    rewrite R1. replace (met_all pre Pending) with Pending by (destruct pre; reflexivity). rewrite run_files.
    rewrite <- (app_nil_r t2), R2. cbn [CommandLine.run].
    destruct files as [|f files]; [destruct post; reflexivity|]. destruct post; cbn [met_all option_met]; rewrite (remove_plain _ F); reflexivity.
  - rewrite !set_all_fst. reflexivity.
  - intros d. unfold last_value. rewrite get_all by (rewrite set_all_fst; reflexivity). rewrite get_all by reflexivity. rewrite fold_left_app, get_default. reflexivity.
Qed.

Lemma last_perm : forall ch ch' d, Permutation ch ch' -> NoDup (map fst ch) -> last_value ch d = last_value ch' d.
Proof.
  intros ch ch' d P. unfold last_value. generalize (default_of d). induction P as [|c l l' P IH|x y l|a b c P1 IH1 P2 IH2]; intros v ND.
  - reflexivity.
  - cbn [fold_left]. apply IH. inversion ND. assumption.
  - cbn [fold_left]. destruct (dest_eq_dec (fst y) d), (dest_eq_dec (fst x) d); try reflexivity. exfalso. inversion ND as [|? ? N _]. apply N. left. congruence.
  - rewrite IH1 by exact ND. apply IH2. apply (Permutation_NoDup (Permutation_map fst P1) ND).
Qed.
(** Each option given once: neither the order nor the spelling (two arguments, equals sign,
    abbreviation) nor the place before or after the file names matters. *)
Theorem C101_any_order : forall pre post pre' post' files ch ch', Forall2 gives (pre ++ post) ch -> Forall2 gives (pre' ++ post') ch' ->
  Permutation ch ch' -> NoDup (map fst ch) -> Forall plain files ->
  parse_args py_float py_int (all_args pre ++ files ++ all_args post) = parse_args py_float py_int (all_args pre' ++ files ++ all_args post').
Proof.
  intros pre post pre' post' files ch ch' G G' P ND F.
  destruct (C101_options_and_files pre files post ch G F) as (ns & E & K & V). destruct (C101_options_and_files pre' files post' ch' G' F) as (ns' & E' & K' & V').
  rewrite E, E'. f_equal. apply same_namespace; [congruence|rewrite K; apply dests_nodup|]. intros d. rewrite V, V'. apply last_perm; assumption.
Qed.

(** After two dashes any text is a file name. *)
Theorem C101_two_dashes : forall pre files more ch, Forall2 gives pre ch -> Forall plain files ->
  exists ns, parse_args py_float py_int (all_args pre ++ files ++ lit "--" :: more) = Parsed (files ++ more) ns /\ forall d, get_attr ns d = last_value ch d.
Proof.
  intros pre files more ch G F. destruct (all_effect pre ch G) as (t1 & A1 & _ & R1). exists (set_all defaults ch). split.
  - unfold parse_args.
    assert (C : classify (lit "--" :: more) = Some ((lit "--", TDash) :: map (fun x => (x, TArg)) more)) by reflexivity.
    assert (C1 : classify (files ++ lit "--" :: more) = Some (map (fun s => (s, TArg)) files ++ (lit "--", TDash) :: map (fun x => (x, TArg)) more)) by (rewrite (classify_files files (lit "--" :: more) F), C; reflexivity).
    rewrite (A1 _ _ C1).
    rewrite R1. replace (met_all pre Pending) with Pending by (destruct pre; reflexivity). rewrite run_files. cbn [CommandLine.run].
    assert (RM : forall l, Forall plain l -> forall m, remove_dashes (l ++ lit "--" :: m) = l ++ m).
    { induction 1 as [|s l P Q IH]; intros m; [reflexivity|]. cbn [app remove_dashes]. rewrite (str_eqb_neq _ _ (proj2 (parse_plain s P))). rewrite IH. reflexivity. }
    destruct files as [|f files]; cbn [positional_arg].
    + rewrite <- (app_nil_r (map (fun x => (x, TArg)) more)), run_taking. cbn [CommandLine.run]. f_equal.
    + rewrite <- (app_nil_r (map (fun x => (x, TArg)) more)), run_taking. cbn [CommandLine.run]. f_equal. rewrite <- app_assoc. cbn [app]. apply (RM (f :: files) F more).
  - intros d. unfold last_value. rewrite get_all by reflexivity. rewrite get_default. reflexivity.
Qed.

Lemma extras_never : forall n ts p ns, (List.length ts <= n)%nat -> forall fs m, run ts p true ns <> Parsed fs m.
Proof.
  induction n as [|n IH]; intros ts p ns L fs m.
  - destruct ts; [discriminate|cbn in L; lia].
  - destruct ts as [|(s, t) ts]; [discriminate|]. cbn [List.length] in L. cbn [CommandLine.run]. destruct t as [[[|k d|d b]|] name [e|]| |]; try discriminate; try (apply IH; lia).
    + destruct (starts_with (lit "--") name); [discriminate|]. generalize (match ts with (_, TArg) :: _ => true | _ => false end) as af. intros af.
      induction e as [|c e IHe]; [discriminate|]. cbn [help_letters]. destruct (Ascii.eqb c "h"); [destruct e; [discriminate|exact IHe]|]. destruct (Ascii.eqb c "o"); [|discriminate]. destruct e; [destruct af|]; discriminate.
    + destruct (str_eqb e (lit "--")); [discriminate|]. destruct (convert py_float py_int k e); [apply IH; lia|discriminate].
    + destruct ts as [|(v, [a1 n1 e1| |]) ts]; try discriminate. destruct (str_eqb v (lit "--")); [discriminate|]. destruct (convert py_float py_int k v); [apply IH; cbn [List.length] in L; lia|discriminate].
    + destruct p; cbn [positional_arg]; apply IH; lia.
    + destruct p; cbn [positional_arg]; apply IH; lia.
Qed.
(** File names on both sides of an option are refused, although both places are allowed. *)
Theorem C101_files_in_two_places_refuted : forall pre f1 mid f2 post c1 c2 c3, Forall2 gives pre c1 -> Forall2 gives mid c2 -> Forall2 gives post c3 ->
  Forall plain f1 -> Forall plain f2 -> f1 <> [] -> mid <> [] -> f2 <> [] ->
  parse_args py_float py_int (all_args pre ++ f1 ++ all_args mid ++ f2 ++ all_args post) = Exits 2.
Proof.
  intros pre f1 mid f2 post c1 c2 c3 G1 G2 G3 F1 F2 N1 N2 N3.
  destruct (all_effect pre c1 G1) as (t1 & A1 & _ & R1). destruct (all_effect mid c2 G2) as (t2 & A2 & _ & R2). destruct (all_effect post c3 G3) as (t3 & A3 & _ & R3).
  unfold parse_args. specialize (A3 [] [] eq_refl). rewrite !app_nil_r in A3.
  assert (C2 : classify (f2 ++ all_args post) = Some (map (fun s => (s, TArg)) f2 ++ t3)) by (rewrite (classify_files f2 _ F2), A3; reflexivity).
  assert (C1 : classify (f1 ++ all_args mid ++ f2 ++ all_args post) = Some (map (fun s => (s, TArg)) f1 ++ t2 ++ map (fun s => (s, TArg)) f2 ++ t3)) by (rewrite (classify_files f1 _ F1), (A2 _ _ C2); reflexivity).
  rewrite (A1 _ _ C1). rewrite R1. replace (met_all pre Pending) with Pending by (destruct pre; reflexivity). rewrite run_files. destruct f1 as [|f f1]; [contradiction|].
  rewrite R2. destruct mid as [|g mid]; [contradiction|]. cbn [met_all option_met]. destruct f2 as [|h f2]; [contradiction|]. cbn [map app CommandLine.run positional_arg].
  assert (T : forall l ts p ex ns, run (map (fun s => (s, TArg)) l ++ ts) (Taken p) true ns = run ts (Taken p) (ex || true) ns).
  { induction l as [|s l IH]; intros ts p ex ns; [rewrite orb_true_r; reflexivity|]. cbn [map app CommandLine.run positional_arg]. apply IH. }
  rewrite (T f2 t3 _ false). rewrite <- (app_nil_r t3), R3. reflexivity.
Qed.

(** A value that begins with a dash and is not a plain decimal, as "-9.5e1", is refused when
    it is an argument of its own, whatever float would make of it; with an equals sign it is
    read (C101_options_and_files). *)
Theorem C101_exponent_refuted : forall pre ch s k d c r rest, Forall2 gives pre ch -> means s (Store k d) ->
  c <> "-"%char -> c <> "h"%char -> c <> "o"%char -> negative_number ("-"%char :: c :: r) = false -> ~ In " "%char ("-"%char :: c :: r) ->
  parse_args py_float py_int (all_args pre ++ s :: ("-"%char :: c :: r) :: rest) = Exits 2.
Proof.
  intros pre ch s k d c r rest G M N1 N2 N3 NN NS. destruct (all_effect pre ch G) as (t1 & A1 & B1 & R1). unfold parse_args.
  destruct (parse_means s _ M) as (name & PS). destruct (means_facts s _ M) as (_ & ND & _).
  assert (PV : parse_optional ("-"%char :: c :: r) = Some (TOpt None ("-"%char :: c :: r) None)).
  { rewrite parse_short by assumption. rewrite NN. destruct (existsb (Ascii.eqb " ") ("-"%char :: c :: r)) eqn:E; [|reflexivity].
    apply existsb_exists in E. destruct E as (x & I & E). apply Ascii.eqb_eq in E. subst x. contradiction. }
  assert (NV : "-"%char :: c :: r <> lit "--") by (intros E; injection E as E _; contradiction).
  destruct (classify rest) as [ts|] eqn:C.
  - assert (C1 : classify (s :: ("-"%char :: c :: r) :: rest) = Some ((s, TOpt (Some (Store k d)) name None) :: ("-"%char :: c :: r, TOpt None ("-"%char :: c :: r) None) :: ts)).
    { rewrite (classify_one _ _ _ ND PS), (classify_one _ _ _ NV PV), C. reflexivity. }
    rewrite (A1 _ _ C1), R1. reflexivity.
  - rewrite B1; [reflexivity|]. rewrite (classify_one _ _ _ ND PS), (classify_one _ _ _ NV PV), C. reflexivity.
Qed.

(** A text that begins with two dashes: the part before an equals sign is the beginning of no
    option (unknown), or of several without being one of them (ambiguous). *)
Definition long_head (s h : pystr) : Prop := begins h (lit "--") /\ h <> lit "--" /\ no_eq h /\ (s = h \/ exists v, s = h ++ "="%char :: v).
Theorem C101_unknown_refused : forall pre ch s h rest, Forall2 gives pre ch -> long_head s h -> (forall m, In m all_names -> ~ begins (lit m) h) -> ~ In " "%char s ->
  forall fs ns, parse_args py_float py_int (all_args pre ++ s :: rest) <> Parsed fs ns.
Proof.
  intros pre ch s h rest G (B & NB & NE & S) U NS fs ns. destruct (all_effect pre ch G) as (t1 & A1 & B1 & R1). unfold parse_args.
  assert (NO : forall q a, ~ In (h ++ q, a) options).
  { intros q a J. destruct (option_name _ _ J) as (m & M & E). apply (U m M). rewrite <- E. exists q. reflexivity. }
  assert (FN : filter (fun o : pystr * action => starts_with h (fst o)) options = []).
  { assert (Z : forall l, (forall o, In o l -> In o options) -> filter (fun o : pystr * action => starts_with h (fst o)) l = []).
    { induction l as [|(m, b) l IH]; intros W; [reflexivity|]. cbn [filter fst]. destruct (starts_with h m) eqn:E.
      - exfalso. apply starts_begins in E. destruct E as (q & ->). exact (NO q b (W _ (or_introl eq_refl))).
      - apply IH. intros o O. apply W. right. exact O. }
    apply Z. auto. }
  assert (SP : parse_optional s = Some (TOpt None s None) /\ s <> lit "--").
  { destruct B as (r & EB). assert (F : forall q, find_option (h ++ q) = None) by (intros q; apply find_option_none; apply NO).
    destruct r as [|c0 r]; [exfalso; apply NB; rewrite EB; apply app_nil_r|].
    assert (EX : existsb (Ascii.eqb " ") s = false).
    { destruct (existsb (Ascii.eqb " ") s) eqn:E; [|reflexivity]. apply existsb_exists in E. destruct E as (x & I & E). apply Ascii.eqb_eq in E. subst x. contradiction. }
    assert (NNs : forall q, negative_number ("-"%char :: "-"%char :: q) = false) by reflexivity.
    assert (T : option_tuples s = [] /\ find_option s = None /\ match split_eq s with Some (o, _) => find_option o = None | None => True end /\ exists q, s = "-"%char :: "-"%char :: c0 :: q).
    { destruct S as [->|(v & ->)].
      - rewrite (split_eq_none h NE). split; [|split; [rewrite <- (app_nil_r h); apply F|split; [exact I|exists r; exact EB]]].
        unfold option_tuples. rewrite EB at 1. change (lit "--" ++ c0 :: r) with ("-"%char :: "-"%char :: c0 :: r). cbn [Ascii.eqb Bool.eqb]. rewrite (split_eq_none h NE). rewrite FN. reflexivity.
      - rewrite (split_eq_app h v NE). split; [|split; [apply F|split; [rewrite <- (app_nil_r h); apply F|exists (r ++ "="%char :: v); rewrite EB; reflexivity]]].
        unfold option_tuples. rewrite EB at 1. change ((lit "--" ++ c0 :: r) ++ "="%char :: v) with ("-"%char :: "-"%char :: c0 :: r ++ "="%char :: v). cbn [Ascii.eqb Bool.eqb].
        rewrite (split_eq_app h v NE). rewrite FN. reflexivity. }
    destruct T as (T1 & T2 & T3 & q & T4). split; [|rewrite T4; discriminate].
    rewrite T4 at 1. unfold parse_optional. cbn [negb Ascii.eqb Bool.eqb List.length Nat.eqb]. rewrite <- T4, T2, T1, EX. rewrite T4, NNs, <- T4.
    destruct (split_eq s) as [(o, e)|]; [rewrite T3|]; reflexivity. }
  destruct SP as (SP & ND). destruct (classify rest) as [ts|] eqn:C.
  - assert (C1 : classify (s :: rest) = Some ((s, TOpt None s None) :: ts)) by (rewrite (classify_one _ _ _ ND SP), C; reflexivity).
    rewrite (A1 _ _ C1), R1. cbn [CommandLine.run]. apply (extras_never (List.length ts)). lia.
  - rewrite B1; [discriminate|]. rewrite (classify_one _ _ _ ND SP), C. reflexivity.
Qed.
Theorem C101_ambiguous_refused : forall pre ch s h rest m1 m2, Forall2 gives pre ch -> long_head s h -> In m1 all_names -> In m2 all_names -> m1 <> m2 ->
  begins (lit m1) h -> begins (lit m2) h -> (forall m, In m all_names -> h <> lit m) ->
  parse_args py_float py_int (all_args pre ++ s :: rest) = Exits 2.
Proof.
  intros pre ch s h rest m1 m2 G (B & NB & NE & S) M1 M2 NM B1 B2 NX. destruct (all_effect pre ch G) as (t1 & A1 & X1 & R1). unfold parse_args. rewrite X1; [reflexivity|].
  assert (FO : forall q, (q = [] \/ exists v, q = "="%char :: v) -> find_option (h ++ q) = None).
  { intros q Q. apply find_option_none. intros a J. destruct Q as [->|(v & ->)].
    - rewrite app_nil_r in J. destruct (option_name _ _ J) as (m & M & E). exact (NX m M E).
    - destruct (name_facts _ _ J) as (K & _). apply K. apply in_or_app. right. left. reflexivity. }
  assert (NA : forall m, In m all_names -> exists a, In (lit m, a) options).
  { intros m M. destruct M as [<-|[<-|M]]; [exists Help; rewrite options_documented; left; reflexivity|exists Help; rewrite options_documented; right; left; reflexivity|].
    apply in_map_iff in M. destruct M as ((n, a) & <- & J). exists a. apply doc_in. exact J. }
  assert (TW : exists x y l, filter (fun o : pystr * action => starts_with h (fst o)) options = x :: y :: l).
  { destruct (NA m1 M1) as (a1 & J1). destruct (NA m2 M2) as (a2 & J2).
    assert (F1 : In (lit m1, a1) (filter (fun o : pystr * action => starts_with h (fst o)) options)) by (apply filter_In; split; [exact J1|apply starts_begins; exact B1]).
    assert (F2 : In (lit m2, a2) (filter (fun o : pystr * action => starts_with h (fst o)) options)) by (apply filter_In; split; [exact J2|apply starts_begins; exact B2]).
    destruct (filter (fun o : pystr * action => starts_with h (fst o)) options) as [|x [|y l]]; [destruct F1| |exists x, y, l; reflexivity].
    destruct F1 as [->|[]]. destruct F2 as [E|[]]. exfalso. apply NM. apply lit_inj. congruence. }
  destruct TW as (x & y & l & TW). destruct B as (r & EB). destruct r as [|c0 r]; [exfalso; apply NB; rewrite EB; apply app_nil_r|].
  assert (T : exists u v w, option_tuples s = u :: v :: w /\ find_option s = None /\ match split_eq s with Some (o, _) => find_option o = None | None => True end /\ exists q, s = "-"%char :: "-"%char :: c0 :: q).
  { destruct S as [->|(v & ->)].
    - eexists. eexists. eexists. split; [|split; [rewrite <- (app_nil_r h); apply FO; left; reflexivity|rewrite (split_eq_none h NE); split; [exact I|exists r; exact EB]]].
      unfold option_tuples. rewrite EB at 1. change (lit "--" ++ c0 :: r) with ("-"%char :: "-"%char :: c0 :: r). cbn [Ascii.eqb Bool.eqb]. rewrite (split_eq_none h NE). rewrite TW. reflexivity.
    - eexists. eexists. eexists. split; [|split; [apply FO; right; exists v; reflexivity|rewrite (split_eq_app h v NE); split; [rewrite <- (app_nil_r h); apply FO; left; reflexivity|exists (r ++ "="%char :: v); rewrite EB; reflexivity]]].
      unfold option_tuples. rewrite EB at 1. change ((lit "--" ++ c0 :: r) ++ "="%char :: v) with ("-"%char :: "-"%char :: c0 :: r ++ "="%char :: v). cbn [Ascii.eqb Bool.eqb].
      rewrite (split_eq_app h v NE). rewrite TW. reflexivity. }
  destruct T as (u & v & w & T1 & T2 & T3 & q & T4).
  assert (PN : parse_optional s = None).
  { rewrite T4 at 1. unfold parse_optional. cbn [negb Ascii.eqb Bool.eqb List.length Nat.eqb]. rewrite <- T4, T2, T1. destruct u as ((u1, u2), u3).
    destruct (split_eq s) as [(o, e)|]; [rewrite T3|]; reflexivity. }
  cbn [classify]. rewrite str_eqb_neq by (rewrite T4; discriminate). rewrite PN. reflexivity.
Qed.

(** ** The script *)
Section Run.
Variable goes_grid : string -> string -> string -> res view.
Variable to_grid : Q -> Q * Q -> Q * Q.
Variable to_lonlat : Q -> Q * Q -> Q * Q.
Variable dlonlat : Q * Q -> Q * Q -> Q * Q -> Q * Q -> (Q * Q) * (Q * Q) * (Q * Q).
Notation script_main := (script_main py_float py_int goes_grid to_grid to_lonlat dlonlat).
(** The option for a table of corner points has no effect: a command line with it runs as
    without it, whatever the file and wherever it stands. *)
Theorem C101_corner_points_refuted : forall pre1 pre2 files post g v ch1 c ch2 ch3, Forall2 gives pre1 ch1 -> gives g (CornerPoints, v) -> c = (CornerPoints, v) ->
  Forall2 gives pre2 ch2 -> Forall2 gives post ch3 -> Forall plain files ->
  script_main (all_args (pre1 ++ g :: pre2) ++ files ++ all_args post) = script_main (all_args (pre1 ++ pre2) ++ files ++ all_args post).
Proof.
  intros pre1 pre2 files post g v ch1 c ch2 ch3 G1 G Ec G2 G3 F.
  destruct (C101_options_and_files (pre1 ++ g :: pre2) files post ((ch1 ++ c :: ch2) ++ ch3)) as (ns & E & K & V); [apply Forall2_app; [apply Forall2_app; [exact G1|constructor; [rewrite Ec; exact G|exact G2]]|exact G3]|exact F|].
  destruct (C101_options_and_files (pre1 ++ pre2) files post ((ch1 ++ ch2) ++ ch3)) as (ns' & E' & K' & V'); [apply Forall2_app; [apply Forall2_app; assumption|exact G3]|exact F|].
  unfold CommandLine.script_main. rewrite E, E'.
  assert (A : forall d, d <> CornerPoints -> get_attr ns d = get_attr ns' d).
  { intros d N. rewrite V, V'. unfold last_value. rewrite !fold_left_app. cbn [fold_left]. rewrite Ec. cbn [fst]. destruct (dest_eq_dec CornerPoints d); [exfalso; apply N; symmetry; assumption|reflexivity]. }
  unfold cmd_of, centre_read. rewrite !A by discriminate. reflexivity.
Qed.
(** Command lines that differ in the order or spelling of options run alike. *)
Theorem C101_runs_alike : forall pre post pre' post' files ch ch', Forall2 gives (pre ++ post) ch -> Forall2 gives (pre' ++ post') ch' ->
  Permutation ch ch' -> NoDup (map fst ch) -> Forall plain files ->
  script_main (all_args pre ++ files ++ all_args post) = script_main (all_args pre' ++ files ++ all_args post').
Proof.
  intros pre post pre' post' files ch ch' G G' P ND F. unfold CommandLine.script_main. rewrite (C101_any_order pre post pre' post' files ch ch' G G' P ND F). reflexivity.
Qed.
(** What is gridded: the call of the gridding function is the one set up (C45, C58) for the
    values given last, each under its own name. *)
Definition carries (c : cmdline) (files : list pystr) (v : dest -> value) : Prop :=
  let text o d := match o with Some s => v d = VText s | None => v d = VNone end in
  a_paths c = files /\ text (a_start c) Start /\ text (a_end c) End_ /\
  v CtrLon = VFloat (a_lon c) /\ v CtrLat = VFloat (a_lat c) /\ v Dx = VFloat (a_dx c) /\ v Dy = VFloat (a_dy c) /\
  v Width = VFloat (a_width c) /\ v Height = VFloat (a_height c) /\ v Dt = VFloat (a_dt c) /\
  v MinEvents = VInt (a_min_events c) /\ v MinGroups = VInt (a_min_groups c) /\ v Subdivide = VInt (a_subdivide c) /\ v EllipseRev = VInt (a_rev c) /\
  v FixedGrid = VBool (a_fixed_grid c) /\ v SplitEvents = VBool (a_split c) /\ v ScaleOffset = VBool (a_scale c) /\
  v Position = VText (list_ascii_of_string (a_position c)) /\ v Sector = VText (list_ascii_of_string (a_sector c)).
Theorem C101_what_is_gridded : forall pre files post ch c outdir, Forall2 gives (pre ++ post) ch -> Forall plain files ->
  carries c files (last_value ch) -> last_value ch Outdir = VText outdir -> last_value ch IsLma = VBool false ->
  script_main (all_args pre ++ files ++ all_args post) =
  match GridSetup.grid_setup goes_grid to_grid to_lonlat dlonlat c with
  | Ok (fs, t0, t1, kw) => Gridding fs t0 t1 kw outdir
  | Err e => Fails e
  end.
Proof.
  intros pre files post ch c outdir G F C HO HL. destruct (C101_options_and_files pre files post ch G F) as (ns & E & _ & V).
  unfold CommandLine.script_main. rewrite E. destruct C as (c1 & c2 & c3 & c4 & c5 & c6 & c7 & c8 & c9 & c10 & c11 & c12 & c13 & c14 & c15 & c16 & c17 & c18 & c19).
  assert (K : cmd_of files ns = c).
  { unfold cmd_of. rewrite !V, c4, c5, c6, c7, c8, c9, c10, c11, c12, c13, c14, c15, c16, c17, c18, c19. cbn [num int flag txt].
    rewrite !string_of_list_ascii_of_string. destruct c as [p st en]. cbn in *. subst p.
    destruct st, en; rewrite c2, c3; reflexivity. }
  rewrite K, !V, HL, HO, c4, c5. cbn [flag txt]. destruct (GridSetup.grid_setup _ _ _ _ c) as [(((fs, t0), t1), kw)|e]; reflexivity.
Qed.
End Run.
End Conv.

(** * The hypotheses can be met *)
Definition ex_float (s : pystr) : option Q := if str_eqb s (lit "-95.5") then Some (-(191 # 2))%Q else if str_eqb s (lit "2.0") then Some 2%Q else None.
Definition ex_int (s : pystr) : option Z := if str_eqb s (lit "4") then Some 4 else None.
Ltac full_name n := exists n; split; [cbn; tauto|left; reflexivity].
Example C101_hypotheses :
  let gs := [Sep (lit "--ctr_lon") (lit "-95.5"); Joined (lit "--dx") (lit "2.0"); Short (lit "out"); Bare (lit "--fixed"); Sep (lit "--sub") (lit "4")] in
  let ch := [(CtrLon, VFloat (-(191 # 2))); (Dx, VFloat 2); (Outdir, VText (lit "out")); (FixedGrid, VBool true); (Subdivide, VInt 4)] in
  Forall2 (gives ex_float ex_int) gs ch /\ NoDup (map fst ch) /\ Forall plain [lit "a.nc"; lit "-"] /\
  all_args gs = [lit "--ctr_lon"; lit "-95.5"; lit "--dx=2.0"; lit "-oout"; lit "--fixed"; lit "--sub"; lit "4"] /\
  parse_args ex_float ex_int (all_args gs ++ [lit "a.nc"; lit "-"]) = Parsed [lit "a.nc"; lit "-"]
    (set_attr (set_attr (set_attr (set_attr (set_attr defaults CtrLon (VFloat (-(191 # 2)))) Dx (VFloat 2)) Outdir (VText (lit "out"))) FixedGrid (VBool true)) Subdivide (VInt 4)) /\
  parse_args ex_float ex_int [lit "a.nc"; lit "--dx"; lit "2.0"; lit "b.nc"] = Exits 2 /\
  parse_args ex_float ex_int [lit "--ctr_lon"; lit "-9.5e1"; lit "a.nc"] = Exits 2 /\
  parse_args ex_float ex_int [lit "--d"; lit "2.0"; lit "a.nc"] = Exits 2 /\
  parse_args ex_float ex_int [lit "--help"; lit "--bad"] = Exits 0.
Proof.
  cbv zeta. split; [|split; [cbn; repeat (constructor; [cbn; intuition discriminate|]); constructor|split; [|repeat (split; [reflexivity|]); reflexivity]]].
  - constructor; [|constructor; [|constructor; [|constructor; [|constructor; [|constructor]]]]]; cbn [gives fst snd].
    + exists KFloat. split; [full_name "--ctr_lon"%string|]. split; [|exists (-(191 # 2))%Q; split; reflexivity]. right. right. right. exists (lit "95"), (lit "5").
      split; [reflexivity|]. split; [discriminate|]. split; repeat constructor.
    + exists KFloat. split; [full_name "--dx"%string|]. split; [discriminate|]. exists 2%Q. split; reflexivity.
    + split; [reflexivity|]. split; [discriminate|]. split; [discriminate|]. split; [intros r E; discriminate E|reflexivity].
    + exists true. split; [|reflexivity]. exists "--fixed_grid"%string. split; [cbn; tauto|]. right. split; [exists (lit "fixed"); reflexivity|]. split; [exists (lit "_grid"); reflexivity|].
      intros m M B. apply starts_begins in B. cbn in M. repeat (destruct M as [<-|M]; [first [discriminate B|reflexivity]|]). destruct M.
    + exists KInt. split; [|split; [left; intros r E; discriminate E|exists 4; split; reflexivity]]. exists "--subdivide_grid"%string. split; [cbn; tauto|]. right. split; [exists (lit "sub"); reflexivity|]. split; [exists (lit "divide_grid"); reflexivity|].
      intros m M B. apply starts_begins in B. cbn in M. repeat (destruct M as [<-|M]; [first [discriminate B|reflexivity]|]). destruct M.
  - constructor; [left; intros r E; discriminate E|]. constructor; [right; left; reflexivity|constructor].
Qed.
Print Assumptions C101_options_and_files.
Print Assumptions C101_any_order.
Print Assumptions C101_two_dashes.
Print Assumptions C101_files_in_two_places_refuted.
Print Assumptions C101_exponent_refuted.
Print Assumptions C101_unknown_refused.
Print Assumptions C101_ambiguous_refused.
Print Assumptions C101_corner_points_refuted.
Print Assumptions C101_runs_alike.
Print Assumptions C101_what_is_gridded.
(** The values carried by a command line that gives the centre and the directory. *)
Example C101_carries_ex :
  let ch := [(CtrLon, VFloat (-(191 # 2))); (CtrLat, VFloat 33); (Outdir, VText (lit "out"))] in
  exists c, carries c [lit "a.nc"] (last_value ch) /\ last_value ch Outdir = VText (lit "out") /\ last_value ch IsLma = VBool false /\
    (a_lon c, a_lat c) = (-(191 # 2), 33)%Q.
Proof.
  cbv zeta. eexists (mkCmd [lit "a.nc"] None None _ _ _ _ _ _ _ _ _ _ _ _ _ _ _ _). split; [|split; [reflexivity|split; reflexivity]].
  unfold carries. cbv zeta. cbn [a_paths a_start a_end a_dx a_dy a_width a_height a_lon a_lat a_dt a_min_events a_min_groups a_fixed_grid a_subdivide a_position a_sector a_split a_scale a_rev].
  repeat (split; [reflexivity|]). reflexivity.
Qed.
