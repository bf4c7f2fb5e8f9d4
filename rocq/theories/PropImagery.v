(** C37, C38, C39, C52: the imagery written by write_goes_imagery. *)
From Coq Require Import List ZArith QArith Qabs Qround Bool String Lia Lqa.
From Verif Require Import Base BaseProofs Glm GlmProofs3 Lut FileName Imagery ImagerySpec ImageryProofs.
Import ListNotations.
Open Scope Q_scope.

(** * Helpers *)
Lemma pad_lo : forall n m, slice_lo (pad_slice (Z.of_nat n)) (m + 2 * n) = n.
Proof.
  intros n m. unfold pad_slice, slice_lo. destruct (Z.eqb_spec (Z.of_nat n) 0) as [E|E]; cbn [sl_lo slice_all]; [lia|].
  unfold bound. destruct (Z.ltb_spec (Z.of_nat n) 0); lia.
Qed.
Lemma pad_len : forall n m, slice_len (pad_slice (Z.of_nat n)) (m + 2 * n) = m.
Proof.
  intros n m. unfold slice_len. rewrite pad_lo. unfold pad_slice, slice_hi. destruct (Z.eqb_spec (Z.of_nat n) 0) as [E|E]; cbn [sl_hi slice_all]; [lia|].
  unfold bound. destruct (Z.ltb_spec (- Z.of_nat n) 0); lia.
Qed.
Lemma centers_length : forall e, List.length (centers e) = (List.length e - 1)%nat.
Proof. intros e. unfold centers. rewrite map_length, combine_length. destruct e; cbn [tl List.length]; lia. Qed.
Lemma centers_nth : forall e k, (S k < List.length e)%nat -> nth_error (centers e) k = Some (center e k).
Proof.
  intros e k H. unfold centers, center. rewrite nth_error_map.
  assert (E : nth_error (combine e (tl e)) k = Some (nth k e 0, nth (S k) e 0)); [|rewrite E; reflexivity].
  destruct e as [|e0 e]; [cbn in H; lia|]. cbn [tl]. revert e0 k H. induction e as [|e1 e IH]; intros e0 k H; [cbn in H; lia|].
  destruct k; [reflexivity|]. cbn [combine nth_error]. change (nth (S k) (e0 :: e1 :: e) 0) with (nth k (e1 :: e) 0). change (nth (S (S k)) (e0 :: e1 :: e) 0) with (nth (S k) (e1 :: e) 0).
  apply IH. cbn in H |- *. lia.
Qed.
Lemma nth_error_firstn : forall A (l : list A) n k, (k < n)%nat -> nth_error (firstn n l) k = nth_error l k.
Proof. induction l; intros [|n] [|k] H; try lia; auto. cbn. apply IHl. lia. Qed.
Lemma nth_error_skipn : forall A n (l : list A) k, nth_error (skipn n l) k = nth_error l (n + k).
Proof. induction n; intros [|a l] k; auto. cbn. destruct k; reflexivity. cbn. apply IHn. Qed.
Lemma coords : forall e pad m, List.length e = S (m + 2 * pad) ->
  List.length (slice_list (pad_slice (Z.of_nat pad)) (centers e)) = m /\
  forall c, (c < m)%nat -> nth_error (slice_list (pad_slice (Z.of_nat pad)) (centers e)) c = Some (center e (pad + c)).
Proof.
  intros e pad m H. unfold slice_list. rewrite centers_length, H. replace (S (m + 2 * pad) - 1)%nat with (m + 2 * pad)%nat by lia. rewrite pad_lo, pad_len. split.
  - rewrite firstn_length, skipn_length, centers_length. lia.
  - intros c Hc. rewrite nth_error_firstn by auto. rewrite nth_error_skipn. apply centers_nth. lia.
Qed.
Lemma nth_error_rev : forall A (l : list A) r, (r < List.length l)%nat -> nth_error (rev l) r = nth_error l (List.length l - 1 - r).
Proof.
  intros A l r H. destruct l as [|d l0]; [cbn in H; lia|]. set (l := d :: l0) in *.
  rewrite (nth_error_nth' (rev l) d) by (rewrite rev_length; auto). rewrite rev_nth by auto. rewrite (nth_error_nth' l d) by lia. do 2 f_equal. lia.
Qed.
Lemma center_mono : forall e i j, ascending e -> (i < j)%nat -> (S j < List.length e)%nat -> center e i < center e j.
Proof.
  intros e i j A L H. unfold center. pose proof (A i j ltac:(lia)) as P. pose proof (A (S i) (S j) ltac:(lia)) as R.
  unfold Qdiv. apply Qmult_lt_compat_r; [reflexivity|]. lra.
Qed.
Lemma writes_files : forall gd pad scaled mx my outgrids after files, writes gd pad scaled mx my outgrids after files ->
  List.length files = (List.length (gd_tedges gd) - 1)%nat /\
  (forall t f, nth_error files t = Some f -> shows_frame gd (pad_slice (Z.of_nat pad)) (pad_slice (Z.of_nat pad)) scaled (mx + 2 * pad) (my + 2 * pad) outgrids t f) /\
  List.length after = List.length outgrids /\ shaped after (mx + 2 * pad) (my + 2 * pad) (List.length (gd_tedges gd) - 1) /\
  forall i x y t, (i < List.length outgrids)%nat -> (t < List.length files)%nat -> (pad <= x < pad + mx)%nat -> (pad <= y < pad + my)%nat ->
    at_ after i x y t = raise_tiny (sc_of gd scaled i) (value gd scaled outgrids t i x y).
Proof.
  intros gd pad scaled mx my og af files (AX & AY & LX & LY & SH & LN & SD & sc & stamp & nows & W). unfold write_goes_imagery in W.
  destruct (frames_files gd _ _ scaled sc stamp _ _ _ SD nows _ og 0%nat af files ltac:(reflexivity) LN SH W) as (A & B & C & D & E).
  split; [exact A|]. split; [intros t f Hf; apply (D t f Hf)|]. split; [exact B|]. split; [exact C|].
  intros i x y t Hi Ht Hx Hy. rewrite E by auto. cbn [Nat.leb andb]. rewrite Nat.add_0_l. replace (Nat.ltb t _) with true by (symmetry; apply Nat.ltb_lt; lia).
  unfold expected. rewrite Nat.eqb_refl. unfold in_view. rewrite !pad_lo, !pad_len.
  replace (Nat.leb pad x && Nat.ltb x (pad + mx) && Nat.leb pad y && Nat.ltb y (pad + my))%bool with true; [reflexivity|].
  symmetry. rewrite !andb_true_iff, !Nat.leb_le, !Nat.ltb_lt. lia.
Qed.
Lemma sc_of_scaling : forall gd scaled i, (i < List.length (gd_names gd))%nat ->
  sc_of gd scaled i = scaling_of scaled (nth i (gd_names gd) EmptyString) /\ steps gd scaled i = if scaled then step (nth i (gd_names gd) EmptyString) else None.
Proof. intros gd scaled i H. split; [reflexivity|]. unfold steps. rewrite (nth_error_nth' _ EmptyString H). reflexivity. Qed.
Lemma sc_of_steps : forall gd scaled i, (i < List.length (gd_names gd))%nat -> sc_of gd scaled i = option_map (fun s => (s, 0)) (steps gd scaled i).
Proof. intros gd scaled i H. destruct (sc_of_scaling gd scaled i H) as [-> ->]. apply step_of_scaling. Qed.
Lemma cell_at : forall og i x y t v, cell og i x y t v -> (i < List.length og)%nat /\ at_ og i x y t = v.
Proof.
  intros og i x y t v (a & H & E). split; [apply nth_error_Some; congruence|]. unfold at_. rewrite (nth_error_nth _ _ _ H). exact E.
Qed.
Lemma final_none : forall sc, final sc None = None.
Proof. intros [[s o]|]; reflexivity. Qed.
Lemma pixel_fun : forall f i r c w w', pixel_of f i r c w -> pixel_of f i r c w' -> w = w'.
Proof. intros f i r c w w' (n & rows & row & A & B & C) (n' & rows' & row' & A' & B' & C'). rewrite A in A'. inversion A'; subst. rewrite B in B'. inversion B'; subst. congruence. Qed.

Lemma shows_compat : forall s v v' w, v == v' -> shows s v w -> shows s v' w.
Proof.
  intros s v v' w E [A B]. split; [intros Z; apply A; rewrite E; exact Z|]. intros P. assert (P' : 0 < v) by lra. specialize (B P').
  destruct s as [s|].
  - intros L. destruct B as (u & -> & u1 & u2 & u3); [lra|]. exists u. split; [reflexivity|]. split; [intros K; apply u1; lra|]. split.
    + intros K. assert (EQ : u - v == u - v') by lra. rewrite <- EQ. apply u2. lra.
    + intros k Ek. rewrite <- E. apply (u3 k). rewrite E. exact Ek.
  - destruct B as (u & -> & Eu). exists u. split; [reflexivity|]. lra.
Qed.

(** * C37 *)
(** Whatever the padding, every frame has a file; column c and row r of each image are at
    the coordinates of a cell, x to the east and y to the north row first, and hold what
    is in the array for that cell and frame. *)
Theorem C37_pixels_at_their_coordinates : forall gd pad scaled mx my outgrids after files,
  writes gd pad scaled mx my outgrids after files ->
  S (List.length files) = Nat.max 1 (List.length (gd_tedges gd)) /\
  forall t f, nth_error files t = Some f ->
    map fst (of_fields f) = gd_names gd /\ rectangular f my mx /\
    List.length (of_x f) = mx /\ List.length (of_y f) = my /\ ascending (of_x f) /\ ascending (rev (of_y f)) /\
    forall i r c, (i < List.length outgrids)%nat -> (r < my)%nat -> (c < mx)%nat ->
      exists x y, (pad <= x < pad + mx)%nat /\ (pad <= y < pad + my)%nat /\
        nth_error (of_x f) c = Some (center (gd_xedge gd) x) /\ nth_error (of_y f) r = Some (center (gd_yedge gd) y) /\
        (gd_divide gd i = None -> exists w, pixel_of f i r c w /\
          (cell outgrids i x y t None -> w = None) /\ forall v, cell outgrids i x y t (Some v) -> shows (steps gd scaled i) v w).
Proof.
  intros gd pad scaled mx my og af files W. destruct (writes_files _ _ _ _ _ _ _ _ W) as (LF & FF & _).
  destruct W as (AX & AY & LX & LY & SH & LN & SD & _). split; [lia|]. intros t f Hf.
  destruct (FF t f Hf) as (Ex & Ey & Nm & Rc & Px). rewrite !pad_lo, !pad_len in *.
  destruct (coords _ _ _ LX) as [cx1 cx2]. destruct (coords _ _ _ LY) as [cy1 cy2].
  assert (ASC : forall e m l, ascending e -> List.length e = S (m + 2 * pad) -> List.length l = m -> (forall c, (c < m)%nat -> nth_error l c = Some (center e (pad + c))) -> ascending l).
  { intros e m l A L L' H i j Hij. rewrite (nth_error_nth l i 0 (H i ltac:(lia))), (nth_error_nth l j 0 (H j ltac:(lia))). apply center_mono; auto; lia. }
  split; [exact Nm|]. split; [exact Rc|]. rewrite Ex, Ey. split; [exact cx1|]. split; [rewrite rev_length; exact cy1|].
  split; [exact (ASC _ _ _ AX LX cx1 cx2)|]. split; [rewrite rev_involutive; exact (ASC _ _ _ AY LY cy1 cy2)|].
  intros i r c Hi Hr Hc. exists (pad + c)%nat, (pad + (my - 1 - r))%nat. split; [lia|]. split; [lia|]. split; [apply cx2; auto|]. split.
  { rewrite nth_error_rev by lia. rewrite cy1. apply cy2. lia. }
  intros ND. eexists. split; [apply Px; auto|]. unfold value. rewrite ND.
  split.
  - intros Hc'. apply cell_at in Hc'. destruct Hc' as [_ ->]. apply final_none.
  - intros v Hv. apply cell_at in Hv. destruct Hv as [_ ->]. destruct (sc_of_scaling gd scaled i ltac:(lia)) as [-> ->]. apply final_shows.
Qed.
Print Assumptions C37_pixels_at_their_coordinates.

(** The call ends without exception as soon as two columns and one row are written. *)
Theorem C37_writing_succeeds : forall gd pad scaled mx my outgrids sc stamp nows,
  (2 <= mx)%nat -> (1 <= my)%nat -> ascending (gd_xedge gd) -> ascending (gd_yedge gd) ->
  List.length (gd_xedge gd) = S (mx + 2 * pad) -> List.length (gd_yedge gd) = S (my + 2 * pad) ->
  shaped outgrids (mx + 2 * pad) (my + 2 * pad) (List.length (gd_tedges gd) - 1) ->
  List.length (gd_names gd) = List.length outgrids -> simple_divide (gd_divide gd) ->
  exists after files,
    write_goes_imagery gd (pad_slice (Z.of_nat pad)) (pad_slice (Z.of_nat pad)) scaled sc stamp nows outgrids = Ok (after, files) /\
    writes gd pad scaled mx my outgrids after files.
Proof.
  intros gd pad scaled mx my og sc stamp nows Hx Hy AX AY LX LY SH LN SD.
  destruct (coords _ _ _ LX) as [cx1 _]. destruct (coords _ _ _ LY) as [cy1 _].
  destruct (frames_succeed gd (pad_slice (Z.of_nat pad)) (pad_slice (Z.of_nat pad)) scaled sc stamp _ _ _ SD nows (gd_tedges gd) og 0%nat ltac:(reflexivity) LN SH) as (S & files & E); [lia|lia|].
  exists S, files. split; [exact E|]. repeat (split; [assumption|]). exists sc, stamp, nows. exact E.
Qed.
Print Assumptions C37_writing_succeeds.

(** * C38 *)
(** Where the count is not a positive number below its own step, the divided field shows
    total over count, and nothing where one of them is zero.  Missing: counts below one
    step in scaled output, and writing again; both are refuted below. *)
Theorem C38_averages_partial : forall gd pad scaled mx my outgrids after files t f i d r c x y total count,
  writes gd pad scaled mx my outgrids after files -> nth_error files t = Some f -> gd_divide gd i = Some d ->
  (i < List.length outgrids)%nat -> (r < my)%nat -> (c < mx)%nat -> x = (pad + c)%nat -> y = (pad + (my - 1 - r))%nat ->
  cell outgrids i x y t (Some total) -> cell outgrids d x y t (Some count) -> 0 <= total ->
  (count == 0 \/ 0 < count /\ match steps gd scaled d with None => True | Some s => s <= count end) ->
  exists w, pixel_of f i r c w /\ (total == 0 \/ count == 0 -> w = None) /\
    (0 < total -> 0 < count -> shows (steps gd scaled i) (total / count) w).
Proof.
  intros gd pad scaled mx my og af files t f i d r c x y total count W Hf Hd Hi Hr Hc -> -> HT HC T0 C0.
  destruct (writes_files _ _ _ _ _ _ _ _ W) as (_ & FF & _). destruct W as (_ & _ & _ & _ & _ & LN & SD & _).
  destruct (FF t f Hf) as (_ & _ & _ & _ & Px). rewrite !pad_lo, !pad_len in Px. destruct (SD i d Hd) as [Ld _].
  eexists. split; [apply Px; auto|]. unfold value. rewrite Hd. apply cell_at in HT, HC. destruct HT as [_ ->]. destruct HC as [_ ->].
  assert (RT : exists u, raise_tiny (sc_of gd scaled d) (Some count) = Some u /\ u == count).
  { rewrite sc_of_steps by lia. destruct C0 as [E|[P M]]; [rewrite raise_tiny_zero by auto; eexists; split; [reflexivity|reflexivity]|].
    destruct (steps gd scaled d) as [s|] eqn:ES; [|eexists; split; [reflexivity|reflexivity]]. cbn [option_map].
    destruct (sc_of_scaling gd scaled d ltac:(lia)) as [_ ES']. rewrite ES in ES'. destruct scaled; [|discriminate ES']. symmetry in ES'. apply step_pos in ES'.
    destruct (raise_tiny_cases s count ES' P) as (u & -> & _ & u2 & _). exists u. split; [reflexivity|]. auto. }
  destruct RT as (u & -> & Eu). pose proof (final_shows scaled (nth i (gd_names gd) EmptyString)) as FS.
  destruct (sc_of_scaling gd scaled i ltac:(lia)) as [-> ->]. unfold divide, is_zero. split.
  - intros Z. replace (Qeq_bool u 0 || Qeq_bool total 0)%bool with true; [apply FS; reflexivity|]. symmetry. apply orb_true_iff. rewrite !Qeq_bool_iff. destruct Z as [Z|Z]; [right; auto|left; rewrite Eu; auto].
  - intros PT PC. replace (Qeq_bool u 0 || Qeq_bool total 0)%bool with false.
    2:{ symmetry. apply orb_false_iff. split; apply not_true_iff_false; rewrite Qeq_bool_iff; lra. }
    unfold fdiv. assert (EQ : total / u == total / count) by (rewrite Eu; reflexivity).
    exact (shows_compat _ _ _ _ EQ (FS (total / u))).
Qed.
Print Assumptions C38_averages_partial.

(** Two cells; the gridder used with the lookup table has eight fields, of which we give
    the first three (footprint over extent density). *)
Definition ex_gd : gridder :=
  mkGridder [0; 1; 2] [0; 1] [0; 60] (firstn 3 lut_names) lut_divide (lit "G16").
Definition ex_scenes : scenes := mkScenes (1, 1) (1 # 2, 1 # 2) (1 # 4, 1 # 4).
Definition ex_time : datetime := mkDT 2020 1 0 0 0 0.
Definition ex_arr (a b : Q) : array3 := mkArr 2 1 1 (fun x _ _ => if Nat.eqb x 0 then Some a else Some b).
Lemma lut_simple : simple_divide lut_divide.
Proof. intros i d H. destruct i as [|[|[|[|[|[|[|i]]]]]]]; inversion H; subst; split; try reflexivity; lia. Qed.
Lemma ex_ascending : forall l, Forall (fun ij => (fst ij < snd ij)%nat -> nth (fst ij) l 0 < nth (snd ij) l 0) (list_prod (seq 0 (List.length l)) (seq 0 (List.length l))) -> ascending l.
Proof.
  intros l H i j Hij. rewrite Forall_forall in H. apply (H (i, j)); [|cbn; lia]. apply in_prod; apply in_seq; lia.
Qed.
Lemma ex_asc2 : ascending [0; 1; 2].
Proof. apply ex_ascending. repeat constructor; cbn; intros; try lia; reflexivity. Qed.
Lemma ex_asc1 : ascending [0; 1].
Proof. apply ex_ascending. repeat constructor; cbn; intros; try lia; reflexivity. Qed.
Lemma ex_writes : forall scaled arrays, shaped arrays 2 1 1 -> List.length arrays = 3%nat ->
  exists after files, write_goes_imagery ex_gd slice_all slice_all scaled ex_scenes (fun _ => ex_time) (fun _ => ex_time) arrays = Ok (after, files) /\
    writes ex_gd 0 scaled 2 1 arrays after files.
Proof.
  intros scaled arrays HS HL. apply (C37_writing_succeeds ex_gd 0 scaled 2 1 arrays ex_scenes (fun _ => ex_time) (fun _ => ex_time)); auto.
  - exact ex_asc2.
  - exact ex_asc1.
  - exact lut_simple.
Qed.

(** In scaled output a count below its step is raised to the step before it divides: an
    area of 100 on a count of 1/32 is written as 50. *)
Theorem C38_small_counts_refuted : ~ (forall gd pad scaled mx my outgrids after files t f i d r c x y total count,
  writes gd pad scaled mx my outgrids after files -> nth_error files t = Some f -> gd_divide gd i = Some d ->
  (i < List.length outgrids)%nat -> (r < my)%nat -> (c < mx)%nat -> x = (pad + c)%nat -> y = (pad + (my - 1 - r))%nat ->
  cell outgrids i x y t (Some total) -> cell outgrids d x y t (Some count) -> 0 < total -> 0 < count ->
  exists w, pixel_of f i r c w /\ shows (steps gd scaled i) (total / count) w).
Proof.
  intros H. set (arrays := [ex_arr (1 # 32) 1; ex_arr 1 1; ex_arr (100 # 32) 1]).
  destruct (ex_writes true arrays) as (af & files & E & W); [repeat constructor|reflexivity|].
  destruct files as [|f files]; [vm_compute in E; discriminate E|].
  destruct (H _ _ _ _ _ _ _ _ 0%nat f 2%nat 0%nat 0%nat 0%nat 0%nat 0%nat (100 # 32) (1 # 32) W) as (w & P & S);
    try reflexivity; try (cbn; lia); try (eexists; split; reflexivity).
  assert (PX : pixel_of f 2 0 0 (Some (5 * 10 + 0))).
  { vm_compute in E. inversion E. do 3 eexists. split; [reflexivity|]. split; [reflexivity|]. reflexivity. }
  rewrite (pixel_fun _ _ _ _ _ _ P PX) in S. destruct S as [_ S]. cbn in S.
  destruct S as (u & Eu & _ & S & _); [reflexivity|vm_compute; discriminate|]. inversion Eu; subst u. assert (K : 10 <= (100 # 32) / (1 # 32)) by (vm_compute; discriminate).
  specialize (S K). vm_compute in S. apply S. reflexivity.
Qed.
Print Assumptions C38_small_counts_refuted.

(** Writing divides the arrays themselves: writing them again shows the average divided
    once more. *)
Theorem C38_writing_again_refuted : ~ (forall gd pad scaled mx my outgrids after files after2 files2,
  writes gd pad scaled mx my outgrids after files -> writes gd pad scaled mx my after after2 files2 ->
  forall t f f2 i r c w w2, nth_error files t = Some f -> nth_error files2 t = Some f2 -> pixel_of f i r c w -> pixel_of f2 i r c w2 -> w = w2).
Proof.
  intros H. set (arrays := [ex_arr 2 1; ex_arr 1 1; ex_arr 8 1]).
  destruct (ex_writes false arrays) as (af & files & E & W); [repeat constructor|reflexivity|].
  destruct (writes_files _ _ _ _ _ _ _ _ W) as (_ & _ & LA & SA & AT).
  destruct (ex_writes false af) as (af2 & files2 & E2 & W2); [exact SA|exact LA|].
  destruct files as [|f files]; [vm_compute in E; discriminate E|].
  destruct (writes_files _ _ _ _ _ _ _ _ W2) as (LF2 & SH2 & _). destruct files2 as [|f2 files2]; [discriminate LF2|].
  destruct (SH2 0%nat f2 eq_refl) as (_ & _ & _ & _ & P2). specialize (P2 2%nat 0%nat 0%nat).
  assert (P1 : pixel_of f 2 0 0 (Some (8 / 2))).
  { vm_compute in E. inversion E. do 3 eexists. split; [reflexivity|]. split; [reflexivity|]. reflexivity. }
  assert (A2 : at_ af 2 0 0 0 = Some (8 / 2)) by (rewrite AT by (cbn; lia); reflexivity).
  assert (A0 : at_ af 0 0 0 0 = Some 2) by (rewrite AT by (cbn; lia); reflexivity).
  assert (P2' : pixel_of f2 2 0 0 (Some (8 / 2 / 2))).
  { replace (Some (8 / 2 / 2)) with (final (sc_of ex_gd false 2) (value ex_gd false af 0 2 0 0)); [apply P2; [rewrite LA; cbn; lia|cbn; lia|cbn; lia]|].
    unfold value. cbn [gd_divide ex_gd lut_divide]. rewrite A2, A0. reflexivity. }
  specialize (H _ _ _ _ _ _ _ _ _ _ W W2 0%nat f f2 2%nat 0%nat 0%nat _ _ eq_refl eq_refl P1 P2'). discriminate H.
Qed.
Print Assumptions C38_writing_again_refuted.

(** The fields that are not divided come out the same however often they are written. *)
Lemma raise_tiny_again : forall gd scaled i v, (i < List.length (gd_names gd))%nat -> final (sc_of gd scaled i) (raise_tiny (sc_of gd scaled i) v) = final (sc_of gd scaled i) v.
Proof.
  intros gd scaled i v Hi. rewrite sc_of_steps by auto. destruct (steps gd scaled i) as [s|]; [|reflexivity]. cbn [option_map]. unfold final. f_equal.
  destruct v as [q|]; [|reflexivity]. unfold raise_tiny at 2 3. destruct (Qlt_bool 0 q && Qle_bool q (s + 0))%bool eqn:B; [|unfold raise_tiny; rewrite B; reflexivity].
  unfold raise_tiny. destruct (Qlt_bool 0 (s + 0) && Qle_bool (s + 0) (s + 0))%bool; reflexivity.
Qed.
Theorem C38_writing_again_partial : forall gd pad scaled mx my outgrids after files after2 files2,
  writes gd pad scaled mx my outgrids after files -> writes gd pad scaled mx my after after2 files2 ->
  List.length files2 = List.length files /\
  forall t f f2 i r c w w2, gd_divide gd i = None -> (i < List.length outgrids)%nat -> (r < my)%nat -> (c < mx)%nat ->
    nth_error files t = Some f -> nth_error files2 t = Some f2 -> pixel_of f i r c w -> pixel_of f2 i r c w2 -> w = w2.
Proof.
  intros gd pad scaled mx my og af files af2 files2 W W2.
  destruct (writes_files _ _ _ _ _ _ _ _ W) as (LF & FF & LA & SA & AT). destruct (writes_files _ _ _ _ _ _ _ _ W2) as (LF2 & FF2 & _).
  split; [congruence|]. intros t f f2 i r c w w2 ND Hi Hr Hc Hf Hf2 P P2.
  destruct (FF t f Hf) as (_ & _ & _ & _ & Q1). destruct (FF2 t f2 Hf2) as (_ & _ & _ & _ & Q2). rewrite !pad_lo, !pad_len in Q1, Q2.
  rewrite (pixel_fun _ _ _ _ _ _ P (Q1 i r c Hi Hr Hc)). rewrite (pixel_fun _ _ _ _ _ _ P2 (Q2 i r c ltac:(lia) Hr Hc)).
  unfold value at 2. rewrite ND. assert (Ht : (t < List.length files)%nat) by (apply nth_error_Some; congruence).
  rewrite AT by lia. destruct W as (_ & _ & _ & _ & _ & LN & _). rewrite raise_tiny_again by lia. reflexivity.
Qed.
Print Assumptions C38_writing_again_partial.

(** * C39 *)
(** No field of any file has lightning missing, zero is missing, and what is shown is
    within half a step; these are the conditions of [shows]. *)
Theorem C39_lightning_is_not_lost : forall gd pad scaled mx my outgrids after files t f i r c v,
  writes gd pad scaled mx my outgrids after files -> nth_error files t = Some f -> gd_divide gd i = None ->
  (i < List.length outgrids)%nat -> (r < my)%nat -> (c < mx)%nat -> cell outgrids i (pad + c) (pad + (my - 1 - r)) t (Some v) ->
  exists w, pixel_of f i r c w /\ shows (steps gd scaled i) v w.
Proof.
  intros gd pad scaled mx my og af files t f i r c v W Hf ND Hi Hr Hc HV.
  destruct (writes_files _ _ _ _ _ _ _ _ W) as (_ & FF & _). destruct (FF t f Hf) as (_ & _ & _ & _ & Q1). rewrite !pad_lo, !pad_len in Q1.
  eexists. split; [apply Q1; auto|]. unfold value. rewrite ND. apply cell_at in HV. destruct HV as [_ ->].
  destruct W as (_ & _ & _ & _ & _ & LN & _). destruct (sc_of_scaling gd scaled i ltac:(lia)) as [-> ->]. apply final_shows.
Qed.
Print Assumptions C39_lightning_is_not_lost.

(** Larger values are shown as larger or equal ones. *)
Theorem C39_order_is_kept : forall gd pad scaled mx my outgrids after files t t' f f' i r c r' c' v v',
  writes gd pad scaled mx my outgrids after files -> nth_error files t = Some f -> nth_error files t' = Some f' -> gd_divide gd i = None ->
  (i < List.length outgrids)%nat -> (r < my)%nat -> (c < mx)%nat -> (r' < my)%nat -> (c' < mx)%nat ->
  cell outgrids i (pad + c) (pad + (my - 1 - r)) t (Some v) -> cell outgrids i (pad + c') (pad + (my - 1 - r')) t' (Some v') ->
  0 < v -> v <= v' -> (forall s, steps gd scaled i = Some s -> v' <= 65535 * s) ->
  exists u u', pixel_of f i r c (Some u) /\ pixel_of f' i r' c' (Some u') /\ u <= u'.
Proof.
  intros gd pad scaled mx my og af files t t' f f' i r c r' c' v v' W Hf Hf' ND Hi Hr Hc Hr' Hc' HV HV' P L M.
  destruct (writes_files _ _ _ _ _ _ _ _ W) as (_ & FF & _). destruct (FF t f Hf) as (_ & _ & _ & _ & Q1). destruct (FF t' f' Hf') as (_ & _ & _ & _ & Q2). rewrite !pad_lo, !pad_len in Q1, Q2.
  specialize (Q1 i r c Hi Hr Hc). specialize (Q2 i r' c' Hi Hr' Hc'). unfold value in Q1, Q2. rewrite ND in Q1, Q2.
  apply cell_at in HV, HV'. destruct HV as [_ HV]. destruct HV' as [_ HV']. rewrite HV in Q1. rewrite HV' in Q2.
  destruct W as (_ & _ & _ & _ & _ & LN & _). rewrite sc_of_steps in Q1, Q2 by lia. destruct (steps gd scaled i) as [s|] eqn:ES; cbn [option_map] in Q1, Q2.
  - destruct (sc_of_scaling gd scaled i ltac:(lia)) as [_ ES']. rewrite ES in ES'. destruct scaled; [|discriminate ES']. symmetry in ES'. apply step_pos in ES'.
    destruct (final_mono s v v' ES' P L (M s eq_refl)) as (u & u' & A & B & C). rewrite A in Q1. rewrite B in Q2. eauto.
  - unfold final, stored, raise_tiny in Q1, Q2. destruct (Qeq_bool v 0) eqn:Z; [apply Qeq_bool_iff in Z; lra|]. destruct (Qeq_bool v' 0) eqn:Z'; [apply Qeq_bool_iff in Z'; lra|]. eauto.
Qed.
Print Assumptions C39_order_is_kept.

(** * C52 *)
(** 65536 steps are shown as missing, and one more step as one step. *)
Theorem C52_saturation_refuted : ~ (forall gd pad mx my outgrids after files t f i r c v s,
  writes gd pad true mx my outgrids after files -> nth_error files t = Some f -> gd_divide gd i = None ->
  (i < List.length outgrids)%nat -> (r < my)%nat -> (c < mx)%nat -> cell outgrids i (pad + c) (pad + (my - 1 - r)) t (Some v) ->
  steps gd true i = Some s -> 65535 * s < v -> exists u, pixel_of f i r c (Some u) /\ 65535 * s <= u).
Proof.
  intros H. set (arrays := [ex_arr 4096 1; ex_arr 1 1; ex_arr 8 1]).
  destruct (ex_writes true arrays) as (af & files & E & W); [repeat constructor|reflexivity|].
  destruct files as [|f files]; [vm_compute in E; discriminate E|].
  destruct (H _ _ _ _ _ _ _ 0%nat f 0%nat 0%nat 0%nat 4096 (1 # 16) W) as (u & P & _); try reflexivity; try (cbn; lia); try (eexists; split; reflexivity).
  assert (PX : pixel_of f 0 0 0 None).
  { vm_compute in E. inversion E. do 3 eexists. split; [reflexivity|]. split; [reflexivity|]. reflexivity. }
  pose proof (pixel_fun _ _ _ _ _ _ P PX) as K. discriminate K.
Qed.
Print Assumptions C52_saturation_refuted.

(** * C53 *)
(** A grid, or a tile of it, with a single column (or none) cannot be written, whatever is
    in it. *)
Theorem C53_one_column_refuted : forall gd pad ys scaled mx outgrids sc stamp nows, (mx <= 1)%nat ->
  List.length (gd_xedge gd) = S (mx + 2 * pad) -> (2 <= List.length (gd_tedges gd))%nat ->
  write_goes_imagery gd (pad_slice (Z.of_nat pad)) ys scaled sc stamp nows outgrids = Err IndexError.
Proof.
  intros gd pad ys scaled mx og sc stamp nows M1 LX LT. unfold write_goes_imagery. destruct (gd_tedges gd) as [|t0 [|t1 ts]]; cbn in LT; try lia.
  cbn [write_frames]. unfold write_frame at 1. destruct (coords _ _ _ LX) as [cx1 _].
  destruct (slice_list (pad_slice (Z.of_nat pad)) (centers (gd_xedge gd))) as [|x0 [|x1 xs]]; [reflexivity|reflexivity|cbn in cx1; lia].
Qed.
Print Assumptions C53_one_column_refuted.
(** With two columns or more it can: C37_writing_succeeds, here for the fields, the table
    of averages and the padding of the gridder used with the lookup table. *)
Theorem C53_two_columns_partial : forall xe ye te platform pad scaled mx my outgrids sc stamp nows,
  (2 <= mx)%nat -> (1 <= my)%nat -> ascending xe -> ascending ye ->
  List.length xe = S (mx + 2 * pad) -> List.length ye = S (my + 2 * pad) ->
  List.length outgrids = 8%nat -> shaped outgrids (mx + 2 * pad) (my + 2 * pad) (List.length te - 1) ->
  exists after files,
    write_goes_imagery (mkGridder xe ye te lut_names lut_divide platform) (pad_slice (Z.of_nat pad)) (pad_slice (Z.of_nat pad)) scaled sc stamp nows outgrids
      = Ok (after, files) /\ List.length files = (List.length te - 1)%nat.
Proof.
  intros xe ye te platform pad scaled mx my og sc stamp nows Hx Hy AX AY LX LY L8 SH.
  destruct (C37_writing_succeeds (mkGridder xe ye te lut_names lut_divide platform) pad scaled mx my og sc stamp nows) as (af & files & E & W); auto.
  - exact lut_simple.
  - exists af, files. split; [exact E|]. apply (writes_files _ _ _ _ _ _ _ _ W).
Qed.
Print Assumptions C53_two_columns_partial.

(** * Examples *)
(** One frame of two cells with padding 1 around: values and what is in the file. *)
Definition ex_gd2 : gridder :=
  mkGridder [0; 1; 2; 3; 4] [0; 1; 2; 3] [0; 60] (firstn 3 lut_names) lut_divide (lit "G16").
Definition ex_arr2 (v : nat -> Q) : array3 := mkArr 4 3 1 (fun x y _ => Some (v (x + 10 * y)%nat)).
Example C37_ex : exists after files, writes ex_gd2 1 true 2 1
    [ex_arr2 (fun k => if Nat.eqb k 11 then 3 # 2 else if Nat.eqb k 12 then 1 # 100 else 7); ex_arr2 (fun _ => 0); ex_arr2 (fun k => if Nat.eqb k 11 then 300 else 0)] after files /\
  exists f, files = [f] /\ of_x f = [(1 + 2) / 2; (2 + 3) / 2] /\ of_y f = [(1 + 2) / 2] /\
    pixel_of f 0 0 0 (Some (24 * (1 # 16) + 0)) /\ pixel_of f 0 0 1 (Some (1 * (1 # 16) + 0)) /\
    pixel_of f 1 0 0 None /\ pixel_of f 2 0 0 (Some (20 * 10 + 0)) /\ pixel_of f 2 0 1 None.
Proof.
  destruct (C37_writing_succeeds ex_gd2 1 true 2 1 [ex_arr2 (fun k => if Nat.eqb k 11 then 3 # 2 else if Nat.eqb k 12 then 1 # 100 else 7); ex_arr2 (fun _ => 0); ex_arr2 (fun k => if Nat.eqb k 11 then 300 else 0)]
    ex_scenes (fun _ => ex_time) (fun _ => ex_time)) as (af & files & E & W); try reflexivity; try lia.
  - apply ex_ascending. repeat constructor; cbn; intros; try lia; reflexivity.
  - apply ex_ascending. repeat constructor; cbn; intros; try lia; reflexivity.
  - repeat constructor.
  - exact lut_simple.
  - exists af, files. split; [exact W|]. vm_compute in E. inversion E. eexists. split; [reflexivity|].
    repeat (split; [reflexivity|]). repeat split; do 3 eexists; (split; [reflexivity|]; split; [reflexivity|]; reflexivity).
Qed.
