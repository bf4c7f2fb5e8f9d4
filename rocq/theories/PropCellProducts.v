(** C109: the products of one cell agree with each other. *)
From Coq Require Import String List ZArith QArith Qabs Bool Lia Lqa Permutation.
From Verif Require Import Base BaseProofs Traversal TraversalSpec TraversalProofs Glm GlmSpec GlmProofs GlmProofs2 GlmProofs3
  Lut LutSpec LutProofs PropGlm PropLut Accum AccumSpec AccumProofs Poly PolySpec PolyProofs BBox BBoxSpec BBoxProofs Slice SliceSpec SliceProofs Regroup Pipeline PipelineSpec PipelineProofs PropPipeline ChunkSpec ChunkProofs PropChunks PropSlice ReachSpec PropReach CellProductsSpec.
Import ListNotations.
Open Scope Z_scope.
Local Notation tbl := (table obs).

(** * The chunks behind the tables *)
Definition piece (F G E : tbl) (c : list tbl) : Prop :=
  exists Fi Gi Ei, c = [Fi; Gi; Ei] /\ derived_ok Fi Gi Ei /\ numbers (areas Fi) /\ numbers (areas Gi) /\ numbers (energies Ei) /\
    incl Fi F /\ incl Gi G /\ incl Ei E.
Definition file_chunks so q (ds : list tbl) (cs : list (list tbl)) : Prop :=
  (nth_error ds 2 = Some [] /\ cs = []) \/
  ((exists v E, nth_error ds 2 = Some (v :: E)) /\ exists F G E sel, ds = [F; G; E] /\ selection so ds q sel /\ splits cs sel /\ forall c, In c cs -> piece F G E c).
Definition table_for weird (c : list tbl) (t : list lutrow) : Prop := get_lutevents weird lut_scale lut_range lut_range c = Ok t.

Lemma chunks_read : forall so, (forall l, Permutation (so l) l) -> forall weird cs files q tables,
  (0 < cs)%nat -> (forall q', q = Some q' -> q_check q' = true) -> Forall usable files -> tables_read so weird cs q files tables ->
  exists css, Forall2 (file_chunks so q) files css /\ Forall2 (table_for weird) (List.concat css) tables.
Proof.
  intros so HP weird cs files q tables Hcs HQ US (tss & F2 & ->).
  assert (ONE : forall ds ts, In ds files -> tables_of_file so weird cs q ds ts -> exists ch, file_chunks so q ds ch /\ Forall2 (table_for weird) ch ts).
  { intros ds ts Hd T. rewrite Forall_forall in US. destruct (US ds Hd) as [Z|(F & G & E & -> & nF & nG & nE & D & NF & NG & NE)].
    - destruct T as [[_ ->]|[(e & E & K) _]]; [|congruence]. exists []. split; [left; auto|constructor].
    - destruct T as [[K _]|[_ (chunks & C1 & T1)]]; [cbn in K; inversion K; congruence|].
      destruct (selection_exists so HP F G E q D nF nG nE HQ) as (F2' & G2 & E2 & S & HF2 & HG2 & HE2 & D2).
      destruct (C26_chunks_split_selection so HP cs F G E q Hcs D nF nG nE HQ) as (sel1 & c1 & S1 & R1 & SP1 & _ & N1).
      rewrite C1 in R1. inversion R1; subst c1. assert (sel1 = [F2'; G2; E2]) by (unfold selection in *; destruct q; congruence). subst sel1.
      exists chunks. split; [|exact T1]. right. split; [destruct E as [|ev0 E]; [congruence|cbn; eauto]|].
      exists F, G, E, [F2'; G2; E2]. split; [reflexivity|]. split; [exact S1|]. split; [exact SP1|].
      destruct SP1 as (F0 & G0 & E0 & EQ & _ & h0 & h1 & h2). replace F0 with F2' in h0 by congruence. replace G0 with G2 in h1 by congruence. replace E0 with E2 in h2 by congruence.
      intros c Hc. destruct (N1 c Hc) as (Fi & Gi & Ei & -> & Di & _). exists Fi, Gi, Ei.
      assert (I0 : incl Fi F). { intros x Hx. apply HF2. rewrite <- h0. apply in_concat. exists Fi. split; auto. apply in_map_iff. exists [Fi; Gi; Ei]. auto. }
      assert (I1 : incl Gi G). { intros x Hx. apply HG2. apply (Permutation_in _ h1). apply in_concat. exists Gi. split; auto. apply in_map_iff. exists [Fi; Gi; Ei]. auto. }
      assert (I2 : incl Ei E). { intros x Hx. apply HE2. apply (Permutation_in _ h2). apply in_concat. exists Ei. split; auto. apply in_map_iff. exists [Fi; Gi; Ei]. auto. }
      split; [reflexivity|]. split; [exact Di|]. split; [apply (sub_nums _ F); auto|]. split; [apply (sub_nums _ G); auto|]. split; [apply (sub_nums _ E); auto|]. auto. }
  clear -F2 ONE. induction F2 as [|ds ts fs tss H F2 IH]; [exists []; split; constructor|].
  destruct (ONE ds ts (or_introl eq_refl) H) as (ch & A & B). destruct IH as (css & A' & B'); [intros; apply ONE; auto; right; auto|].
  exists (ch :: css). split; [constructor; auto|]. cbn [List.concat]. apply Forall2_app; auto.
Qed.

(** * One row of a table *)
Lemma distinct_le : forall n m (f : row obs -> Z) (g : row obs -> Z) (C : tbl), distinct_count n (map f C) -> distinct_count m (map g C) ->
  (forall e e', In e C -> In e' C -> g e = g e' -> f e = f e') -> (n <= m)%nat.
Proof.
  intros n m f g C (d & ND & Hd & ->) (d' & ND' & Hd' & ->) H.
  assert (K : forall l, NoDup l -> (forall x, In x l -> In x (map f C)) -> exists l', NoDup l' /\ List.length l' = List.length l /\
     (forall y, In y l' -> exists e, In e C /\ g e = y /\ In (f e) l)).
  { induction l as [|x l IH]; intros N I; [exists []; split; [constructor|]; split; [reflexivity|intros y []]|]. inversion N; subst.
    destruct IH as (l' & N' & L & J); auto; [intros; apply I; right; auto|].
    assert (X : In x (map f C)) by (apply I; left; auto). apply in_map_iff in X. destruct X as (e & Ex & He).
    exists (g e :: l'). split; [|split].
    - constructor; auto. intros Y. destruct (J _ Y) as (e' & He' & Eg & Hl). apply H2. rewrite <- Ex. rewrite <- (H e' e He' He Eg). exact Hl.
    - cbn. lia.
    - intros y [<-|Hy]; [exists e; split; auto; split; auto; left; auto|]. destruct (J y Hy) as (e' & ? & ? & ?). exists e'. split; auto. split; auto. right; auto. }
  destruct (K d ND) as (l' & N' & L & J); [intros x Hx; apply Hd; auto|]. rewrite <- L. apply NoDup_incl_length; auto.
  intros y Hy. apply Hd'. destruct (J y Hy) as (e & He & <- & _). apply in_map; auto.
Qed.
Lemma total_between : forall (l : list fval) lo hi, numbers l -> (forall x, In (Some x) l -> (lo <= x)%Q /\ (x <= hi)%Q) ->
  (qnat (List.length l) * lo <= total l)%Q /\ (total l <= qnat (List.length l) * hi)%Q.
Proof.
  intros l lo hi N H. unfold total, qnat. induction l as [|a l IH]; [cbn [map List.length]; change (inject_Z (Z.of_nat 0)) with 0%Q; change (qsum []) with 0%Q; lra|].
  destruct IH as [I1 I2]; [intros x Hx; apply N; right; auto|intros x Hx; apply H; right; auto|].
  pose proof (N a (or_introl eq_refl)) as Na. destruct a as [x|]; [|congruence]. destruct (H x) as [A B]; [left; auto|]. cbn [map List.length]. change (qsum (?y :: ?m)) with (y + qsum m)%Q. cbn [num].
  rewrite Nat2Z.inj_succ. unfold Z.succ. rewrite inject_Z_plus. change (inject_Z 1) with 1%Q. lra.
Qed.

(** [l] are [n] values of the rows of [T], with sum [v]. *)
Definition values_of (T : list fval) (n : nat) (v : fval) (l : list fval) : Prop :=
  List.length l = n /\ numbers l /\ incl l T /\ is_num v (total l).
Lemma row_facts : forall weird F G E c t r, piece F G E c -> table_for weird c t -> In r t ->
  (1 <= lu_fcount r <= lu_gcount r)%nat /\ (lu_fcount r <= List.length (nth 0 c []))%nat /\ (lu_gcount r <= List.length (nth 1 c []))%nat /\
  (exists l, values_of (areas F) (lu_fcount r) (lu_farea r) l /\ least_of l (lu_minarea r)) /\
  (exists l, values_of (areas G) (lu_gcount r) (lu_garea r) l) /\
  (exists n l, values_of (energies E) (S n) (lu_energy r) l).
Proof.
  intros weird F G E c t r (Fi & Gi & Ei & -> & D & n0 & n1 & n2 & i0 & i1 & i2) T Hr. unfold table_for in T. cbn [nth].
  destruct (C24_table_conserves weird _ _ _ Fi Gi Ei t n0 n1 n2 T) as (_ & _ & CN & _). destruct (CN r Hr) as (NE & _ & En).
  destruct (C25_counts_areas_minima weird _ _ _ Fi Gi Ei t r n0 n1 T Hr) as (D1 & D2 & P & FA & GA & MA).
  pose proof D as D'. destruct D' as ((U & _) & DF & _). apply unique3 in U. destruct U as (UF & UG & UE).
  destruct (C25_each_flash_once weird _ _ _ Fi Gi Ei t r n0 n1 UF UG T Hr) as [L1 L2].
  set (C := cell_events _ Ei (lu_id r)) in *.
  assert (SUB : forall (X : tbl) p (v : row obs -> fval) Y, numbers (map v X) -> incl X Y -> numbers (map v (filter p X)) /\ incl (map v (filter p X)) (map v Y)).
  { intros X p v Y N I. split.
    - intros x Hx. apply in_map_iff in Hx. destruct Hx as (y & <- & Hy). apply filter_In in Hy. apply N. apply in_map. tauto.
    - intros x Hx. apply in_map_iff in Hx. destruct Hx as (y & <- & Hy). apply filter_In in Hy. apply in_map. apply I. tauto. }
  assert (LEN : forall (X : tbl) p, (List.length (filter p X) <= List.length X)%nat).
  { intros X p. induction X as [|a X IH]; cbn; [lia|]. destruct (p a); cbn; lia. }
  split; [split|].
  - destruct D1 as (d & _ & Hd & ->). destruct C as [|e C']; [congruence|]. destruct d as [|x d]; [|cbn; lia]. exfalso. apply (proj2 (Hd (o_flash (rdat e)))). left. reflexivity.
  - apply (distinct_le _ _ _ _ _ D1 D2). intros e e' He He' Eg. apply filter_In in He, He'.
    destruct (DF e (proj1 He)) as (g & Hg & Rg & Og). destruct (DF e' (proj1 He')) as (g' & Hg' & Rg' & Og').
    assert (g = g'). { assert (Q : rid g = rid g') by congruence. clear -UG Hg Hg' Q. induction Gi as [|a l IH]; [destruct Hg|]. inversion UG; subst.
      destruct Hg as [->|Hg], Hg' as [->|Hg']; auto; exfalso; apply H1; [rewrite Q|rewrite <- Q]; apply in_map; auto. }
    congruence.
  - split; [rewrite L1; apply LEN|]. split; [rewrite L2; apply LEN|]. split; [|split].
    + exists (areas (flashes_of Fi C)). split; [|exact MA]. split; [unfold areas; rewrite map_length; auto|]. destruct (SUB Fi (fun f => existsb (fun e => o_flash (rdat e) =? rid f) C) _ F n0 i0) as [A B].
      split; [exact A|]. split; [exact B|exact FA].
    + exists (areas (groups_of Gi C)). split; [unfold areas; rewrite map_length; auto|]. destruct (SUB Gi (fun f => existsb (fun e => rpid e =? rid f) C) _ G n1 i1) as [A B].
      split; [exact A|]. split; [exact B|exact GA].
    + exists (List.length C - 1)%nat, (energies C). split; [unfold energies; rewrite map_length; destruct C; [congruence|cbn; lia]|].
      destruct (SUB Ei (fun e => discretize weird lut_scale lut_range lut_range (o_x (rdat e)) (o_y (rdat e)) =? lu_id r) _ E n2 i2) as [A B].
      split; [exact A|]. split; [exact B|exact En].
Qed.

(** * Sums over rows *)
Lemma over_le : forall f g tables, (forall r, In r (List.concat tables) -> (f r <= g r)%Q) -> (over f tables <= over g tables)%Q.
Proof.
  intros f g tables. unfold over. induction (List.concat tables) as [|r l IH]; intros H; [apply Qle_refl|]. cbn [map]. change (qsum (?y :: ?m)) with (y + qsum m)%Q.
  apply Qplus_le_compat; [apply H; left; auto|apply IH; intros; apply H; right; auto].
Qed.
Lemma over_ext : forall f g tables, (forall r, In r (List.concat tables) -> (f r == g r)%Q) -> (over f tables == over g tables)%Q.
Proof. intros f g tables H. apply Qle_antisym; apply over_le; intros r Hr; rewrite (H r Hr); apply Qle_refl. Qed.
Lemma over_scale : forall k f tables, (over (fun r => k * f r) tables == k * over f tables)%Q.
Proof.
  intros k f tables. unfold over. induction (List.concat tables) as [|r l IH]; [cbn [map]; change (qsum []) with 0%Q; ring|]. cbn [map].
  change (qsum ((k * f r)%Q :: ?m)) with (k * f r + qsum m)%Q. change (qsum (f r :: ?m)) with (f r + qsum m)%Q. rewrite IH. ring.
Qed.
Lemma over_zero : forall f tables, (forall r, In r (List.concat tables) -> (0 <= f r)%Q) -> (over f tables == 0)%Q -> forall r, In r (List.concat tables) -> (f r == 0)%Q.
Proof.
  intros f tables. unfold over. induction (List.concat tables) as [|a l IH]; intros P Z r Hr; [destruct Hr|]. cbn [map] in Z. change (qsum (f a :: ?m)) with (f a + qsum m)%Q in Z.
  assert (A : (0 <= f a)%Q) by (apply P; left; auto).
  assert (B : (0 <= qsum (map f l))%Q). { clear -P. induction l as [|b l IH]; [apply Qle_refl|]. cbn [map]. change (qsum (f b :: ?m)) with (f b + qsum m)%Q.
    assert (0 <= f b)%Q by (apply P; right; left; auto). assert (0 <= qsum (map f l))%Q by (apply IH; intros r [->|Hr]; apply P; [left; auto|right; right; auto]). lra. }
  destruct Hr as [<-|Hr]; [lra|]. apply IH; auto; [intros; apply P; right; auto|lra].
Qed.
Lemma over_0 : forall tables, (over (fun _ => 0) tables == 0)%Q.
Proof. intros. unfold over. induction (List.concat tables) as [|r l IH]; [reflexivity|]. cbn [map]. change (qsum (?y :: ?m)) with (y + qsum m)%Q. rewrite IH. ring. Qed.
Lemma size_in_nonneg : forall clip m p cells c, (0 <= size_in clip m p cells c)%Q.
Proof.
  intros. unfold size_in. induction (filter _ _) as [|e l IH]; [apply Qle_refl|]. cbn [map]. change (qsum (?y :: ?m)) with (y + qsum m)%Q. pose proof (size_nonneg (fst e)). lra.
Qed.

Section Cell.
Variables (set_order : list Z -> list Z) (weird : fval -> Z) (clip : poly -> poly -> list poly) (tree : Q * Q -> list (Z * Z)) (quad : fval -> fval -> poly).
Variables (xe ye : list Q) (chunk_size : nat) (files : list (list tbl)) (q : option query) (g : grids).
Hypothesis R : run set_order weird clip tree quad xe ye chunk_size files q g.
Local Notation read := (tables_read set_order weird chunk_size q files).
Local Notation part := (CellProductsSpec.part clip tree quad xe ye).

Lemma rows_read : forall tables, read tables -> forall r, In r (List.concat tables) -> exists F G E c t,
  In [F; G; E] files /\ piece F G E c /\ table_for weird c t /\ In r t.
Proof.
  destruct R as [HP HX HY IX IY PR Hcs HQ US RUN].
  intros tables TR r Hr. destruct (chunks_read set_order HP weird chunk_size files q tables Hcs HQ US TR) as (css & A & B).
  apply in_concat in Hr. destruct Hr as (t & Ht & Hr). destruct (F2_in_r _ _ _ _ _ t B Ht) as (c & Hc & Et). apply in_concat in Hc. destruct Hc as (cs & Hcs' & Hc).
  destruct (F2_in_r _ _ _ _ _ cs A Hcs') as (ds & Hds & [[_ ->]|(_ & F & G & E & sel & -> & _ & _ & K)]); [destruct Hc|]. exists F, G, E, c, t. auto.
Qed.
Lemma the_tables : exists tables, read tables /\ (solid quad tables -> forall kx ky, is_cell xe ye kx ky ->
  let w r := (part kx ky r / cell_size xe ye kx ky)%Q in
  products g kx ky (over (fun r => num (lu_energy r) * (part kx ky r / size (quad (lu_x r) (lu_y r))))%Q tables)
    (over (fun r => qnat (lu_fcount r) * w r)%Q tables) (over (fun r => qnat (lu_gcount r) * w r)%Q tables)
    (over (fun r => num (lu_farea r) * w r)%Q tables) (over (fun r => num (lu_garea r) * w r)%Q tables)).
Proof.
  pose proof R as [HP HX HY IX IY PR Hcs HQ US RUN].
  destruct (C36_cells set_order weird clip tree quad xe ye chunk_size files q g HX HY IX IY PR RUN) as (tables & TR & K). exists tables. split; [exact TR|].
  intros SO kx ky [Kx Ky] w. destruct K as (_ & K).
  { intros r Hr. split; [apply SO; auto|]. destruct (rows_read tables TR r Hr) as (F & G & E & c & t & _ & P & T & Hrt).
    destruct (row_facts weird F G E c t r P T Hrt) as (_ & _ & _ & (l & (_ & _ & _ & (v & -> & _)) & _) & (l' & (_ & _ & _ & (v' & -> & _))) & _). split; discriminate. }
  destruct (K kx ky Kx Ky) as (A & B & C & D & E). constructor; assumption.
Qed.
Lemma cell_positive : forall kx ky, is_cell xe ye kx ky -> (0 < cell_size xe ye kx ky)%Q.
Proof. destruct R. intros kx ky [Kx Ky]. apply cell_pos; auto. Qed.
Lemma weight_nonneg : forall kx ky r, is_cell xe ye kx ky -> (0 <= part kx ky r / cell_size xe ye kx ky)%Q.
Proof.
  intros kx ky r K. apply Qle_shift_div_l; [apply cell_positive; auto|]. rewrite Qmult_0_l. apply size_in_nonneg.
Qed.
Lemma values_between : forall k v ds T n x l lo hi, all_between files k v lo hi -> In ds files -> T = map v (nth k ds []) -> values_of T n x l ->
  (qnat n * lo <= num x)%Q /\ (num x <= qnat n * hi)%Q.
Proof.
  intros k v ds T n x l lo hi AB Hd -> (L & N & I & (y & -> & Ey)). cbn [num].
  destruct (total_between l lo hi N) as [A B].
  - intros z Hz. apply I in Hz. apply in_map_iff in Hz. destruct Hz as (r & Er & Hr). apply (AB ds r z); auto.
  - rewrite L in A, B. rewrite Ey. auto.
Qed.
Lemma values_positive : forall k v ds T n x l, all_above_zero files k v -> In ds files -> T = map v (nth k ds []) -> values_of T (S n) x l -> (0 < num x)%Q.
Proof.
  intros k v ds T n x l AB Hd -> (L & N & I & (y & -> & Ey)). cbn [num]. rewrite Ey. clear Ey. destruct l as [|a l]; [discriminate|]. clear L.
  assert (POS : forall z, In (Some z) (a :: l) -> (0 < z)%Q). { intros z Hz. apply I in Hz. apply in_map_iff in Hz. destruct Hz as (r & Er & Hr). apply (AB ds r z); auto. }
  pose proof (N a (or_introl eq_refl)) as Na. destruct a as [z|]; [|congruence]. unfold total. cbn [map num]. change (qsum (?y :: ?m)) with (y + qsum m)%Q. pose proof (POS z (or_introl eq_refl)).
  assert (0 <= total l)%Q. { apply total_nonneg_of. intros w Hw. apply Qlt_le_weak. apply POS. right. exact Hw. } unfold total in *. lra.
Qed.
Lemma qnat_le : forall a b, (a <= b)%nat -> (qnat a <= qnat b)%Q.
Proof. intros. unfold qnat. rewrite <- Zle_Qle. lia. Qed.
Lemma qnat_pos : forall a, (1 <= a)%nat -> (0 < qnat a)%Q.
Proof. intros a H. apply Qlt_le_trans with (qnat 1); [reflexivity|apply qnat_le; auto]. Qed.

(** In every cell there are at least as many groups as flashes, and not fewer than none. *)
Theorem C109_counts : exists tables, read tables /\ (solid quad tables -> forall kx ky, is_cell xe ye kx ky ->
  exists energy flashes groups flash_area group_area, products g kx ky energy flashes groups flash_area group_area /\
    (0 <= flashes)%Q /\ (flashes <= groups)%Q).
Proof.
  destruct the_tables as (tables & TR & K). exists tables. split; [exact TR|]. intros SO kx ky C. do 5 eexists. split; [exact (K SO kx ky C)|]. split.
  - rewrite <- (over_0 tables). apply over_le. intros r Hr. apply Qmult_le_0_compat; [|apply weight_nonneg; auto]. change 0%Q with (qnat 0). apply qnat_le. lia.
  - apply over_le. intros r Hr. apply Qmult_le_compat_r; [|apply weight_nonneg; auto]. apply qnat_le.
    destruct (rows_read tables TR r Hr) as (F & G & E & c & t & _ & P & T & Hrt). apply (row_facts weird F G E c t r P T Hrt).
Qed.
(** If every event has energy, and every flash and group has an area, the five products
    are empty in the same cells. *)
Theorem C109_empty_together : all_above_zero files 2 energy_of -> all_above_zero files 0 area_of -> all_above_zero files 1 area_of ->
  exists tables, read tables /\ (solid quad tables -> forall kx ky, is_cell xe ye kx ky ->
  exists energy flashes groups flash_area group_area, products g kx ky energy flashes groups flash_area group_area /\
    Forall (fun v => 0 <= v)%Q [energy; flashes; groups; flash_area; group_area] /\
    forall v, In v [energy; flashes; groups; flash_area; group_area] -> (v == 0)%Q -> Forall (fun u => u == 0)%Q [energy; flashes; groups; flash_area; group_area]).
Proof.
  intros PE PF PG. destruct the_tables as (tables & TR & K). exists tables. split; [exact TR|]. intros SO kx ky C. do 5 eexists. split; [exact (K SO kx ky C)|].
  set (w := fun r => (part kx ky r / cell_size xe ye kx ky)%Q). set (u := fun r => (part kx ky r / size (quad (lu_x r) (lu_y r)))%Q).
  assert (CP := cell_positive kx ky C).
  assert (W : forall r, (0 <= w r)%Q) by (intros; apply weight_nonneg; auto).
  assert (SP : forall r, In r (List.concat tables) -> (0 < size (quad (lu_x r) (lu_y r)))%Q).
  { intros r Hr. apply SO in Hr. pose proof (size_nonneg (quad (lu_x r) (lu_y r))). destruct (Qlt_le_dec 0 (size (quad (lu_x r) (lu_y r)))) as [?|L]; auto. exfalso. apply Hr. lra. }
  assert (U : forall r, In r (List.concat tables) -> (0 <= u r)%Q).
  { intros r Hr. apply Qle_shift_div_l; [auto|]. rewrite Qmult_0_l. apply size_in_nonneg. }
  assert (DV : forall a b, (0 < b -> (a / b == 0 <-> a == 0))%Q).
  { intros a b Hb. split; intros H; [|rewrite H; unfold Qdiv; ring]. setoid_replace a with (a / b * b)%Q by (field; lra). rewrite H. ring. }
  assert (POS : forall r, In r (List.concat tables) -> (0 < num (lu_energy r))%Q /\ (0 < qnat (lu_fcount r))%Q /\ (0 < qnat (lu_gcount r))%Q /\ (0 < num (lu_farea r))%Q /\ (0 < num (lu_garea r))%Q).
  { intros r Hr. destruct (rows_read tables TR r Hr) as (F & G & E & c & t & Hd & P & T & Hrt).
    destruct (row_facts weird F G E c t r P T Hrt) as ((C1 & C2) & _ & _ & (l & V & _) & (l' & V') & (n & l'' & V'')).
    split; [apply (values_positive 2 energy_of [F; G; E] _ n _ l'' PE Hd eq_refl V'')|]. split; [apply qnat_pos; auto|]. split; [apply qnat_pos; lia|].
    destruct (lu_fcount r) as [|n1]; [lia|]. destruct (lu_gcount r) as [|n2]; [lia|].
    split; [apply (values_positive 0 area_of [F; G; E] _ n1 _ l PF Hd eq_refl V)|apply (values_positive 1 area_of [F; G; E] _ n2 _ l' PG Hd eq_refl V')]. }
  assert (NN : forall (f : lutrow -> Q) (x : lutrow -> Q), (forall r, In r (List.concat tables) -> (0 < f r)%Q /\ (0 <= x r)%Q) -> (0 <= over (fun r => f r * x r) tables)%Q).
  { intros f x H. rewrite <- (over_0 tables). apply over_le. intros r Hr. destruct (H r Hr). apply Qmult_le_0_compat; lra. }
  assert (VAN : forall (f : lutrow -> Q) (x : lutrow -> Q), (forall r, In r (List.concat tables) -> (0 < f r)%Q /\ (0 <= x r)%Q) ->
     (over (fun r => f r * x r) tables == 0 <-> forall r, In r (List.concat tables) -> x r == 0)%Q).
  { intros f x H. split.
    - intros Z r Hr. assert (Y : (f r * x r == 0)%Q) by (apply (over_zero (fun r => f r * x r)%Q tables); auto; intros r' Hr'; destruct (H r' Hr'); apply Qmult_le_0_compat; lra).
      destruct (H r Hr) as [A _]. apply Qmult_integral in Y. destruct Y as [Y|Y]; [lra|exact Y].
    - intros Z. rewrite <- (over_0 tables). apply over_ext. intros r Hr. rewrite (Z r Hr). ring. }
  set (gone := forall r, In r (List.concat tables) -> (part kx ky r == 0)%Q).
  assert (GW : (forall r, In r (List.concat tables) -> (w r == 0)%Q) <-> gone) by (split; intros H r Hr; apply (DV _ _ CP); apply (H r Hr)).
  assert (GU : (forall r, In r (List.concat tables) -> (u r == 0)%Q) <-> gone) by (split; intros H r Hr; apply (DV _ _ (SP r Hr)); apply (H r Hr)).
  assert (V1 : (over (fun r => num (lu_energy r) * u r) tables == 0)%Q <-> gone) by (rewrite <- GU; apply VAN; intros r Hr; split; [apply POS; auto|auto]).
  assert (V2 : (over (fun r => qnat (lu_fcount r) * w r) tables == 0)%Q <-> gone) by (rewrite <- GW; apply VAN; intros r Hr; split; [apply POS; auto|auto]).
  assert (V3 : (over (fun r => qnat (lu_gcount r) * w r) tables == 0)%Q <-> gone) by (rewrite <- GW; apply VAN; intros r Hr; split; [apply POS; auto|auto]).
  assert (V4 : (over (fun r => num (lu_farea r) * w r) tables == 0)%Q <-> gone) by (rewrite <- GW; apply VAN; intros r Hr; split; [apply POS; auto|auto]).
  assert (V5 : (over (fun r => num (lu_garea r) * w r) tables == 0)%Q <-> gone) by (rewrite <- GW; apply VAN; intros r Hr; split; [apply POS; auto|auto]).
  split.
  - repeat (apply Forall_cons; [apply NN; intros r Hr; split; [apply POS; auto|first [apply W|apply (U r Hr)]]|]). constructor.
  - intros v Hv Z. assert (GG : gone). { cbn [In] in Hv. destruct Hv as [<-|[<-|[<-|[<-|[<-|[]]]]]]; [apply V1|apply V2|apply V3|apply V4|apply V5]; exact Z. }
    repeat (apply Forall_cons; [first [apply V1|apply V2|apply V3|apply V4|apply V5]; exact GG|]). constructor.
Qed.
(** If the areas of all flashes are within bounds, so is the average flash area of every
    cell; the same for groups. *)
Theorem C109_average_area : forall flo fhi glo ghi, all_between files 0 area_of flo fhi -> all_between files 1 area_of glo ghi ->
  exists tables, read tables /\ (solid quad tables -> forall kx ky, is_cell xe ye kx ky ->
  exists energy flashes groups flash_area group_area, products g kx ky energy flashes groups flash_area group_area /\
    (flashes * flo <= flash_area)%Q /\ (flash_area <= flashes * fhi)%Q /\ (groups * glo <= group_area)%Q /\ (group_area <= groups * ghi)%Q).
Proof.
  intros flo fhi glo ghi BF BG. destruct the_tables as (tables & TR & K). exists tables. split; [exact TR|]. intros SO kx ky C. do 5 eexists. split; [exact (K SO kx ky C)|].
  set (w := fun r => (part kx ky r / cell_size xe ye kx ky)%Q). assert (W : forall r, (0 <= w r)%Q) by (intros; apply weight_nonneg; auto).
  assert (B : forall r, In r (List.concat tables) -> ((qnat (lu_fcount r) * flo <= num (lu_farea r))%Q /\ (num (lu_farea r) <= qnat (lu_fcount r) * fhi)%Q) /\
     ((qnat (lu_gcount r) * glo <= num (lu_garea r))%Q /\ (num (lu_garea r) <= qnat (lu_gcount r) * ghi)%Q)).
  { intros r Hr. destruct (rows_read tables TR r Hr) as (F & G & E & c & t & Hd & P & T & Hrt).
    destruct (row_facts weird F G E c t r P T Hrt) as (_ & _ & _ & (l & V & _) & (l' & V') & _).
    split; [apply (values_between 0 area_of [F; G; E] _ _ _ l flo fhi BF Hd eq_refl V)|apply (values_between 1 area_of [F; G; E] _ _ _ l' glo ghi BG Hd eq_refl V')]. }
  assert (SC : forall f k, (over (fun r => f r * w r) tables * k == over (fun r => f r * k * w r) tables)%Q).
  { intros f k. rewrite Qmult_comm, <- over_scale. apply over_ext. intros. ring. }
  repeat split; [rewrite SC| |rewrite SC|]; try (rewrite SC); apply over_le; intros r Hr; (apply Qmult_le_compat_r; [apply (B r Hr)|apply W]).
Qed.
(** The minimum flash area of a cell is not above its average flash area. *)
Theorem C109_minimum_below_average : all_above_zero files 0 area_of ->
  exists tables, read tables /\ (solid quad tables -> forall kx ky, is_cell xe ye kx ky ->
  exists energy flashes groups flash_area group_area, products g kx ky energy flashes groups flash_area group_area /\
    exists least, g_at (gr_minarea g) (Z.of_nat kx) (Z.of_nat ky) = Some least /\ (0 <= least)%Q /\ (flashes * least <= flash_area)%Q /\
      (0 < flashes -> 0 < least)%Q).
Proof.
  intros PF. pose proof R as [HP HX HY IX IY PR Hcs HQ US RUN].
  destruct the_tables as (tables & TR & K). exists tables. split; [exact TR|]. intros SO kx ky C. do 5 eexists. split; [exact (K SO kx ky C)|].
  destruct (C36_minimum set_order weird clip tree quad xe ye chunk_size files q g HX HY IX IY PR RUN) as (tm & TRm & M). rewrite (tables_unique _ _ _ _ _ _ _ TRm TR) in M. clear TRm tm.
  set (w := fun r => (part kx ky r / cell_size xe ye kx ky)%Q). assert (W : forall r, (0 <= w r)%Q) by (intros; apply weight_nonneg; auto).
  assert (B : forall r, In r (List.concat tables) -> exists a, lu_minarea r = Some a /\ (0 < a)%Q /\ (qnat (lu_fcount r) * a <= num (lu_farea r))%Q).
  { intros r Hr. destruct (rows_read tables TR r Hr) as (F & G & E & c & t & Hd & P & T & Hrt).
    destruct (row_facts weird F G E c t r P T Hrt) as (_ & _ & _ & (l & (L & N & I & (y & -> & Ey)) & (a & Ea & Ha & Hm)) & _). exists a. split; [exact Ea|]. split.
    - apply I in Ha. apply in_map_iff in Ha. destruct Ha as (f & Ef & Hf). apply (PF [F; G; E] f a Hd Hf Ef).
    - cbn [num]. rewrite Ey, <- L. clear -N Hm. unfold total, qnat. induction l as [|b l IH]; [cbn [map List.length]; change (inject_Z (Z.of_nat 0)) with 0%Q; change (qsum []) with 0%Q; lra|].
      pose proof (N b (or_introl eq_refl)) as Nb. destruct b as [x|]; [|congruence]. assert (a <= x)%Q by (apply Hm; left; auto).
      assert (IH' := IH (fun v Hv => N v (or_intror Hv)) (fun v Hv => Hm v (or_intror Hv))). cbn [map List.length num]. change (qsum (x :: ?m)) with (x + qsum m)%Q.
      rewrite Nat2Z.inj_succ. unfold Z.succ. rewrite inject_Z_plus. change (inject_Z 1) with 1%Q. lra. }
  destruct C as [Kx Ky]. specialize (M ltac:(intros r Hr; destruct (B r Hr) as (a & Ea & Pa & _); exists a; auto) kx ky Kx Ky). cbv zeta in M.
  set (here := fun r => exists c, In (c, (ky, kx)) (cut clip (regular_xy xe ye) (quad (lu_x r) (lu_y r)) (nearby tree (regular_xy xe ye) (quad (lu_x r) (lu_y r))))) in *.
  assert (NH : forall r, In r (List.concat tables) -> {here r} + {(w r == 0)%Q}).
  { intros r _. unfold w, CellProductsSpec.part, size_in. cbv zeta. destruct (filter _ _) as [|e l] eqn:E; [right; cbn [map]; change (qsum []) with 0%Q; unfold Qdiv; ring|left].
    assert (Q : In e (e :: l)) by (left; auto). rewrite <- E in Q. apply filter_In in Q. destruct Q as [Q S]. destruct e as [c [a b]]. unfold same_cell in S. cbn [fst snd] in S. apply andb_true_iff in S. destruct S as [S1 S2].
    apply Nat.eqb_eq in S1, S2. subst a b. exists c. exact Q. }
  destruct M as [[Z NONE]|(r0 & Hr0 & H0 & E0 & LEAST)].
  - exists 0%Q. split; [exact Z|]. split; [apply Qle_refl|].
    assert (V : forall f, (over (fun r => f r * w r) tables == 0)%Q).
    { intros f. rewrite <- (over_0 tables). apply over_ext. intros r Hr. destruct (NH r Hr) as [H|H]; [exfalso; apply (NONE r Hr H)|rewrite H; ring]. }
    change ((over (fun r => (qnat (lu_fcount r) * w r)%Q) tables * 0 <= over (fun r => (num (lu_farea r) * w r)%Q) tables)%Q /\ (0 < over (fun r => (qnat (lu_fcount r) * w r)%Q) tables -> 0 < 0)%Q).
    pose proof (V (fun r => qnat (lu_fcount r))) as V1. pose proof (V (fun r => num (lu_farea r))) as V2. cbv beta in V1, V2. split; [rewrite V2, V1|rewrite V1; auto]. rewrite Qmult_0_l. apply Qle_refl.
  - destruct (B r0 Hr0) as (a & Ea & Pa & _). exists a. rewrite Ea in E0. split; [congruence|]. split; [lra|]. split; [|auto].
    rewrite Qmult_comm, <- over_scale. apply over_le. intros r Hr. change (a * (qnat (lu_fcount r) * w r) <= num (lu_farea r) * w r)%Q. destruct (NH r Hr) as [H|H]; [|rewrite H; ring_simplify; apply Qle_refl].
    destruct (B r Hr) as (b & Eb & Pb & Hb). assert (a <= b)%Q by (apply (LEAST r b a Hr H Eb); congruence).
    setoid_replace (a * (qnat (lu_fcount r) * w r))%Q with (qnat (lu_fcount r) * a * w r)%Q by ring. apply Qmult_le_compat_r; [|apply W].
    apply Qle_trans with (2 := Hb). rewrite (Qmult_comm _ a), (Qmult_comm _ b). apply Qmult_le_compat_r; auto. change 0%Q with (qnat 0). apply qnat_le. lia.
Qed.
Lemma concat_length : forall (l : list tbl), List.length (List.concat l) = list_sum (map (@List.length _) l).
Proof. induction l as [|a l IH]; [reflexivity|]. cbn. rewrite app_length, IH. reflexivity. Qed.
Lemma chunk_sums : forall cs sel k, (k = 0 \/ k = 1)%nat -> splits cs sel -> list_sum (map (fun c => List.length (nth k c [])) cs) = List.length (nth k sel []).
Proof.
  intros cs sel k Hk (F & G & E & -> & _ & h0 & h1 & _).
  destruct Hk as [-> | ->]; cbn [nth].
  - rewrite <- h0, concat_length, map_map. reflexivity.
  - rewrite <- (Permutation_length h1), concat_length, map_map. reflexivity.
Qed.
Lemma qnat_add : forall a b, (qnat (a + b) == qnat a + qnat b)%Q.
Proof. intros. unfold qnat. rewrite Nat2Z.inj_add, inject_Z_plus. reflexivity. Qed.
(** If the pixel outlines of a lookup table do not cover the cell more than once, the
    cell counts no more flashes, and no more groups, than were selected. *)
Theorem C109_at_most_selected : exists tables, read tables /\ (solid quad tables -> forall kx ky, is_cell xe ye kx ky ->
  (forall t, In t tables -> (qsum (map (part kx ky) t) <= cell_size xe ye kx ky)%Q) ->
  exists energy flashes groups flash_area group_area nf ng, products g kx ky energy flashes groups flash_area group_area /\
    Forall2 (selected set_order q 0) files nf /\ Forall2 (selected set_order q 1) files ng /\
    (flashes <= qnat (list_sum nf))%Q /\ (groups <= qnat (list_sum ng))%Q).
Proof.
  pose proof R as [HP HX HY IX IY PR Hcs HQ US RUN].
  destruct the_tables as (tables & TR & K). exists tables. split; [exact TR|]. intros SO kx ky C ONCE. destruct (chunks_read set_order HP weird chunk_size files q tables Hcs HQ US TR) as (css & A & B).
  set (size_of := fun k (cs : list (list tbl)) => list_sum (map (fun c => List.length (nth k c [])) cs)).
  exists (over (fun r => num (lu_energy r) * (part kx ky r / size (quad (lu_x r) (lu_y r))))%Q tables). do 4 eexists. exists (map (size_of 0%nat) css), (map (size_of 1%nat) css). split; [exact (K SO kx ky C)|].
  set (w := fun r => (part kx ky r / cell_size xe ye kx ky)%Q). assert (W : forall r, (0 <= w r)%Q) by (intros; apply weight_nonneg; auto). assert (CP := cell_positive kx ky C).
  assert (SEL : forall k, (k = 0 \/ k = 1)%nat -> Forall2 (selected set_order q k) files (map (size_of k) css)).
  { intros k Hk. clear -A Hk. induction A as [|ds cs fs css H A IH]; [constructor|]. cbn [map]. constructor; auto.
    destruct H as [[Z ->]|(NE & F & G & E & sel & _ & S & SP & _)]; [left; split; auto|right]. split; [exact NE|]. exists sel. split; [exact S|]. unfold size_of. apply chunk_sums; auto. }
  split; [apply SEL; auto|]. split; [apply SEL; auto|].
  assert (FLAT : forall k, list_sum (map (size_of k) css) = size_of k (List.concat css)).
  { intros k. clear. induction css as [|cs css IH]; [reflexivity|]. cbn [map List.concat]. unfold size_of in *. rewrite map_app, list_sum_app. cbn [list_sum fold_right]. change (fold_right Nat.add 0%nat ?l) with (list_sum l). rewrite IH. reflexivity. }
  assert (PC : forall c, In c (List.concat css) -> exists F G E, piece F G E c).
  { intros c Hc. apply in_concat in Hc. destruct Hc as (cs & Hs & Hc). destruct (F2_in_r _ _ _ _ _ cs A Hs) as (ds & _ & [[_ ->]|(_ & F & G & E & sel & -> & _ & _ & Q)]); [destruct Hc|]. exists F, G, E. auto. }
  assert (BOUND : forall k (cnt : lutrow -> nat), (forall c t r, In c (List.concat css) -> table_for weird c t -> In r t -> (cnt r <= List.length (nth k c []))%nat) ->
     (over (fun r => qnat (cnt r) * w r) tables <= qnat (list_sum (map (size_of k) css)))%Q).
  { intros k cnt HC. rewrite FLAT. clear -B HC ONCE W CP. induction B as [|c t ch tables T B IH]; [cbn; apply Qle_refl|].
    unfold over, size_of in *. cbn [List.concat map]. rewrite map_app, qsum_app. cbn [list_sum fold_right]. change (fold_right Nat.add 0%nat ?l) with (list_sum l). rewrite qnat_add.
    apply Qplus_le_compat; [|apply IH; [intros; apply ONCE; right; auto|intros c' t' r Hc; apply HC; right; exact Hc]].
    set (n := List.length (nth k c [])).
    assert (L1 : (qsum (map (fun r => qnat (cnt r) * w r) t) <= qnat n * (qsum (map (part kx ky) t) / cell_size xe ye kx ky))%Q).
    { assert (HT : forall r, In r t -> (cnt r <= n)%nat) by (intros; apply (HC c t r); auto; left; auto). clear -HT W CP. induction t as [|r t IH]; [cbn [map]; change (qsum []) with 0%Q; unfold Qdiv; rewrite Qmult_0_l, Qmult_0_r; apply Qle_refl|].
      cbn [map]. change (qsum ((qnat (cnt r) * w r)%Q :: ?m)) with (qnat (cnt r) * w r + qsum m)%Q. change (qsum (part kx ky r :: ?m)) with (part kx ky r + qsum m)%Q.
      setoid_replace (qnat n * ((part kx ky r + qsum (map (part kx ky) t)) / cell_size xe ye kx ky))%Q with (qnat n * w r + qnat n * (qsum (map (part kx ky) t) / cell_size xe ye kx ky))%Q by (unfold w; field; lra).
      apply Qplus_le_compat; [|apply IH; intros; apply HT; right; auto]. apply Qmult_le_compat_r; [apply qnat_le, HT; left; auto|apply W]. }
    apply Qle_trans with (1 := L1). setoid_replace (qnat n) with (qnat n * 1)%Q at 2 by ring. rewrite !(Qmult_comm (qnat n)). apply Qmult_le_compat_r; [|change 0%Q with (qnat 0); apply qnat_le; lia].
    apply Qle_shift_div_r; auto. rewrite Qmult_1_l. apply ONCE. left. reflexivity. }
  split; (apply BOUND; intros c t r Hc T Hr; destruct (PC c Hc) as (F & G & E & P); apply (row_facts weird F G E c t r P T Hr)).
Qed.
End Cell.

Print Assumptions C109_counts.
Print Assumptions C109_empty_together.
Print Assumptions C109_average_area.
Print Assumptions C109_minimum_below_average.
Print Assumptions C109_at_most_selected.

(** * The hypotheses are met *)
Definition cp_xe : list Q := [0; 28 # 10000; 56 # 10000; 84 # 10000; 112 # 10000]%Q.
Definition cp_ye : list Q := [0; 28 # 10000; 56 # 10000]%Q.
Definition cp_run := grid_files (fun l => l) (fun _ => 0) ex_clip ex_tree small_quad cp_xe cp_ye 1 [far_file] None.
Lemma cp_values : match cp_run with
  | Ok g => has (g_at (gr_energy g) 1 0) 6 && has (g_at (gr_fcount g) 1 0) (25 # 196) && has (g_at (gr_gcount g) 1 0) (25 # 196) && has (g_at (gr_farea g) 1 0) (25 # 49) && has (g_at (gr_minarea g) 1 0) 4
  | _ => false end = true.
Proof. vm_compute. reflexivity. Qed.
Example C109_hypotheses : exists g tables, run (fun l => l) (fun _ => 0) ex_clip ex_tree small_quad cp_xe cp_ye 1 [far_file] None g /\
  tables_read (fun l => l) (fun _ => 0) 1 None [far_file] tables /\ solid small_quad tables /\ is_cell cp_xe cp_ye 1 0 /\
  all_above_zero [far_file] 2 energy_of /\ all_above_zero [far_file] 0 area_of /\ all_above_zero [far_file] 1 area_of /\
  all_between [far_file] 0 area_of 4 10 /\ all_between [far_file] 1 area_of 2 3 /\
  (forall t, In t tables -> (qsum (map (CellProductsSpec.part ex_clip ex_tree small_quad cp_xe cp_ye 1 0) t) <= cell_size cp_xe cp_ye 1 0)%Q) /\
  is_num (g_at (gr_energy g) 1 0) 6 /\ is_num (g_at (gr_fcount g) 1 0) (25 # 196) /\ is_num (g_at (gr_minarea g) 1 0) 4.
Proof.
  pose proof cp_values as V. unfold cp_run in V. destruct (grid_files (fun l => l) (fun _ => 0) ex_clip ex_tree small_quad cp_xe cp_ye 1 [far_file] None) as [g|] eqn:RUN; [|discriminate V].
  assert (INC : forall l, (forall i, (i < 5)%nat -> forall j, (j < 5)%nat -> (i < j)%nat -> (j < List.length l)%nat -> Qlt_bool (edge l i) (edge l j) = true) -> (List.length l <= 5)%nat -> increasing l).
  { intros l H L i j [Hi Hj]. specialize (H i ltac:(lia) j ltac:(lia) Hi Hj). unfold Qlt_bool in H. apply negb_true_iff in H. destruct (Qlt_le_dec (edge l i) (edge l j)) as [K|K]; [exact K|]. apply Qle_bool_iff in K. congruence. }
  eexists g, _. split.
  { constructor; [intros; apply Permutation_refl|cbn; lia|cbn; lia| | | |lia|discriminate| |exact RUN].
    - apply INC; [|cbn; lia]. intros i Hi j Hj Hl HL. do 5 (destruct i as [|i]; [do 5 (destruct j as [|j]; [try lia; vm_compute; reflexivity|]); lia|]). lia.
    - apply INC; [|cbn; lia]. intros i Hi j Hj Hl HL. cbn in HL. do 3 (destruct i as [|i]; [do 3 (destruct j as [|j]; [try lia; vm_compute; reflexivity|]); lia|]). lia.
    - apply C30_hypotheses.
    - constructor; [exact far_usable|constructor]. }
  assert (TR : forall q ds chunks ts, (exists e E, nth_error ds 2 = Some (e :: E)) -> flash_chunks (fun l => l) 1 ds q = Ok chunks ->
    map_res (get_lutevents (fun _ => 0) lut_scale lut_range lut_range) chunks = Ok ts -> tables_read (fun l => l) (fun _ => 0) 1 q [ds] ts).
  { intros q ds chunks ts NE HC HM. exists [ts]. split; [|cbn [List.concat]; rewrite app_nil_r; reflexivity]. constructor; [|constructor]. right. split; [exact NE|]. exists chunks. split; [exact HC|]. apply map_res_inv. exact HM. }
  split; [eapply TR; [do 2 eexists; reflexivity|vm_compute; reflexivity|vm_compute; reflexivity]|]. clear TR.
  split. { intros r Hr. vm_compute in Hr. repeat (destruct Hr as [<-|Hr]; [vm_compute; discriminate|]). destruct Hr. }
  split; [split; cbn; lia|].
  assert (AZ : forall k v, (forall r, In r (nth k far_file []) -> match v r with Some x => Qlt_bool 0 x | None => true end = true) -> all_above_zero [far_file] k v).
  { intros k v H ds r x [<-|[]] Hr E. specialize (H r Hr). rewrite E in H. unfold Qlt_bool in H. apply negb_true_iff in H. destruct (Qlt_le_dec 0 x) as [K|K]; [exact K|]. apply Qle_bool_iff in K. congruence. }
  split; [apply AZ; intros r Hr; cbn in Hr; repeat (destruct Hr as [<-|Hr]; [reflexivity|]); destruct Hr|].
  split; [apply AZ; intros r Hr; cbn in Hr; repeat (destruct Hr as [<-|Hr]; [reflexivity|]); destruct Hr|].
  split; [apply AZ; intros r Hr; cbn in Hr; repeat (destruct Hr as [<-|Hr]; [reflexivity|]); destruct Hr|].
  split; [intros ds r x [<-|[]] Hr E; cbn in Hr; repeat (destruct Hr as [<-|Hr]; [cbn in E; injection E as <-; split; vm_compute; discriminate|]); destruct Hr|].
  split; [intros ds r x [<-|[]] Hr E; cbn in Hr; repeat (destruct Hr as [<-|Hr]; [cbn in E; injection E as <-; split; vm_compute; discriminate|]); destruct Hr|].
  split; [intros t Ht; vm_compute in Ht; repeat (destruct Ht as [<-|Ht]; [vm_compute; discriminate|]); destruct Ht|].
  repeat (apply andb_true_iff in V; destruct V as [V ?]). split; [|split]; apply has_num; assumption.
Qed.
