(** Property C78: coordinates of images on grids of longitude and latitude
    (make_grids.py 761-842 with proj_name='latlong'; imagery.py 164-216, 362-400). *)
From Coq Require Import List ZArith QArith Qabs Qround Bool Ascii String Lia Lqa.
From Verif Require Import Base Glm Lut FileName FileNameSpec GridSetup GridSetupSpec Imagery ImagerySpec ImageryProofs PropImagery Output OutputSpec OutputProofs OutputProofs2 OutputProofs3 OutputProofs4 PropOutput.
Import ListNotations.
Open Scope Q_scope.

Lemma int16_range : forall z, (-32768 <= int16 z <= 32767)%Z.
Proof. intros z. unfold int16. pose proof (Z.mod_pos_bound (z + 32768) 65536 ltac:(lia)). lia. Qed.
Lemma code_bounds : forall z, -(32768 # 1) <= inject_Z (int16 z) <= 32767 # 1.
Proof.
  intros z. destruct (int16_range z) as [A B]. rewrite Zle_Qle in A, B. change (inject_Z (-32768)) with (-32768 # 1) in A. change (inject_Z 32767) with (32767 # 1) in B. lra.
Qed.
Lemma unpack_bounds : forall enc v u, enc = x_enc \/ enc = y_enc -> unpack_coord enc (pack_coord enc v) = Some u -> -2 < u < 2.
Proof.
  intros enc v u E H. unfold unpack_coord in H. destruct (pack_coord enc v =? -999)%Z; [discriminate H|]. injection H as <-. unfold pack_coord. destruct (code_bounds (round_even ((v - snd enc) / fst enc))) as [A B].
  set (i := inject_Z _) in *. clearbody i. destruct E as [->| ->]; unfold x_enc, y_enc; cbn [fst snd]; lra.
Qed.
Lemma far : forall u x, -2 < u < 2 -> 2 < Qabs x -> Qabs x - 2 <= Qabs (u - x).
Proof.
  intros u x [A B]. apply (Qabs_case x).
  - intros P L. assert (X : -(u - x) <= Qabs (u - x)) by (rewrite <- Qabs_opp; apply Qle_Qabs). lra.
  - intros P L. assert (X : u - x <= Qabs (u - x)) by apply Qle_Qabs. lra.
Qed.
(** No coordinate of more than two degrees from zero, east or west, north or south, is read
    back: what is read is nearer to zero than two, whatever the grid. *)
Theorem C78_degrees_refuted : forall j outgrids fs after fs' paths, saves j outgrids fs after fs' paths ->
  forall p, In p paths -> exists f, holds fs' p f /\
    (forall c x u, nth_error (columns j) c = Some x -> 2 < Qabs x -> read_x f c u -> -2 < u < 2 /\ Qabs x - 2 <= Qabs (u - x)) /\
    (forall r y u, nth_error (rev (rows j)) r = Some y -> 2 < Qabs y -> read_y f r u -> -2 < u < 2 /\ Qabs y - 2 <= Qabs (u - y)).
Proof.
  intros j og fs af fs' paths SV p Hp. destruct (under _ _ _ _ _ _ SV p Hp) as (k & q & t0 & t1 & f & _ & _ & _ & _ & M & HF & _). exists f. split; [exact HF|].
  destruct SV as [PR _]. destruct (cols_rows j og PR) as [CX CY]. pose proof (md_x _ _ _ _ _ _ _ _ _ _ _ _ _ _ M) as MX. pose proof (md_y _ _ _ _ _ _ _ _ _ _ _ _ _ _ M) as MY. rewrite CX in MX. rewrite CY in MY.
  split.
  - intros c x u Hc L (a & v & A1 & A2 & A3). rewrite MX, nth_error_map, Hc in A1. injection A1 as <-. pose proof (unpack_bounds x_enc x v (or_introl eq_refl) A2) as R. assert (R' : -2 < u < 2) by (rewrite <- A3; exact R). split; [exact R'|]. apply far; auto.
  - intros c x u Hc L (a & v & A1 & A2 & A3). rewrite MY, nth_error_map, Hc in A1. injection A1 as <-. pose proof (unpack_bounds y_enc x v (or_intror eq_refl) A2) as R. assert (R' : -2 < u < 2) by (rewrite <- A3; exact R). split; [exact R'|]. apply far; auto.
Qed.
Print Assumptions C78_degrees_refuted.

(** Apart from one step west (south) of which the code is that of missing data, coordinates
    up to 1.6 from zero are read within half a step.  Missing: the rest of the Earth. *)
Lemma code_wide : forall enc v, enc = x_enc \/ enc = y_enc -> -(16 # 10) <= v <= 16 # 10 -> pack_coord enc v = round_even ((v - snd enc) / fst enc).
Proof.
  intros enc v E [A B]. unfold pack_coord. apply int16_id. destruct (round_near ((v - snd enc) / fst enc)) as [U L].
  assert (Q1 : -(32000 # 1) <= (v - snd enc) / fst enc <= 32000 # 1).
  { destruct E as [->| ->]; [rewrite x_enc_q|rewrite y_enc_q].
    - setoid_replace ((v + (151844 # 1000000)) / step56) with ((v + (151844 # 1000000)) * (1000000 # 56)) by (unfold step56; field). split; lra.
    - setoid_replace (((151844 # 1000000) - v) / step56) with (((151844 # 1000000) - v) * (1000000 # 56)) by (unfold step56; field). split; lra. }
  set (q := (v - snd enc) / fst enc) in *. clearbody q. split; rewrite Zle_Qle; [change (inject_Z (-32768)) with (-32768 # 1)|change (inject_Z 32767) with (32767 # 1)]; lra.
Qed.
Lemma near_wide : forall enc v, enc = x_enc \/ enc = y_enc -> -(16 # 10) <= v <= 16 # 10 ->
  unpack_coord enc (pack_coord enc v) = None \/ exists u, unpack_coord enc (pack_coord enc v) = Some u /\ Qabs (u - v) <= step56 / 2.
Proof.
  intros enc v E R. unfold unpack_coord. destruct (pack_coord enc v =? -999)%Z; [left; reflexivity|right]. eexists. split; [reflexivity|]. rewrite (code_wide enc v E R).
  destruct (round_near ((v - snd enc) / fst enc)) as [U L]. set (z := inject_Z (round_even ((v - snd enc) / fst enc))) in *. clearbody z. assert (H2 : step56 / 2 == 28 # 1000000) by reflexivity. rewrite H2. apply Qabs_Qle_condition.
  destruct E as [->| ->].
  - rewrite x_enc_q in U, L. assert (W : (v + (151844 # 1000000)) / step56 == (v + (151844 # 1000000)) * (1000000 # 56)) by (unfold step56; field). rewrite W in U, L. unfold x_enc, step56. cbn [fst snd]. split; lra.
  - rewrite y_enc_q in U, L. assert (W : ((151844 # 1000000) - v) / step56 == ((151844 # 1000000) - v) * (1000000 # 56)) by (unfold step56; field). rewrite W in U, L. unfold y_enc, step56. cbn [fst snd]. split; lra.
Qed.
Theorem C78_near_zero_partial : forall j outgrids fs after fs' paths, saves j outgrids fs after fs' paths ->
  forall p, In p paths -> exists f, holds fs' p f /\
    (forall c x u, nth_error (columns j) c = Some x -> -(16 # 10) <= x <= 16 # 10 -> read_x f c u -> Qabs (u - x) <= step56 / 2) /\
    (forall r y u, nth_error (rev (rows j)) r = Some y -> -(16 # 10) <= y <= 16 # 10 -> read_y f r u -> Qabs (u - y) <= step56 / 2).
Proof.
  intros j og fs af fs' paths SV p Hp. destruct (under _ _ _ _ _ _ SV p Hp) as (k & q & t0 & t1 & f & _ & _ & _ & _ & M & HF & _). exists f. split; [exact HF|].
  destruct SV as [PR _]. destruct (cols_rows j og PR) as [CX CY]. pose proof (md_x _ _ _ _ _ _ _ _ _ _ _ _ _ _ M) as MX. pose proof (md_y _ _ _ _ _ _ _ _ _ _ _ _ _ _ M) as MY. rewrite CX in MX. rewrite CY in MY.
  split.
  - intros c x u Hc L (a & v & A1 & A2 & A3). rewrite MX, nth_error_map, Hc in A1. injection A1 as <-. destruct (near_wide x_enc x (or_introl eq_refl) L) as [N|(w & N & W)]; rewrite N in A2; [discriminate A2|]. injection A2 as <-. rewrite <- A3. exact W.
  - intros c x u Hc L (a & v & A1 & A2 & A3). rewrite MY, nth_error_map, Hc in A1. injection A1 as <-. destruct (near_wide y_enc x (or_intror eq_refl) L) as [N|(w & N & W)]; rewrite N in A2; [discriminate A2|]. injection A2 as <-. rewrite <- A3. exact W.
Qed.
Print Assumptions C78_near_zero_partial.

(** Longitudes 100 to 97 degrees west, which are read as numbers between -2 and 2. *)
Definition ex_degrees : list Q := map inject_Z [-100; -99; -98; -97]%Z.
Lemma ex_degrees_asc : ascending ex_degrees.
Proof. apply ex_ascending; repeat constructor; cbn; intros; try lia; reflexivity. Qed.
Example C78_ex : (exists af fs' paths p, saves (ex_coord_job ex_degrees) (ex_coord_grids 3) ex_fs af fs' paths /\ In p paths) /\
  (forall x, In x (columns (ex_coord_job ex_degrees)) -> 2 < Qabs x) /\
  (exists u, unpack_coord x_enc (pack_coord x_enc (-(995 # 10))) = Some u).
Proof.
  split; [|split].
  - destruct (ex_coord_saves ex_degrees ex_degrees_asc ltac:(cbn; lia)) as (af & fs' & paths & SV). destruct (ex_path _ _ _ _ SV) as (p & Hp). exists af, fs', paths, p. auto.
  - intros x H. cbn in H. intuition (subst x; vm_compute; reflexivity).
  - eexists. vm_compute. reflexivity.
Qed.
