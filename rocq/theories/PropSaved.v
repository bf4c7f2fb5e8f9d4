(** C97 and C98: saved lookups, and the pixel of a location. *)
From Coq Require Import List ZArith QArith Qabs Bool Ascii String Lia Lqa.
From Verif Require Import Base BaseProofs FileName Ccd PropCcd Saved.
Import ListNotations.
Open Scope Z_scope.

(** * C97: saved lookups *)
(** ** Specification *)
(** The name under which a call saves, and what it saves, in order. *)
Definition saved_name {O} (c : save_call O) : option pystr :=
  match c with SaveCorners _ _ _ _ n | SaveLookup _ _ _ _ _ _ n => match n with Some [] => None | _ => n end end.
Definition contents {O} (c : save_call O) : list O :=
  match c with SaveCorners _ lo la co _ => [lo; la; co] | SaveLookup _ t x y lo la _ => [t; x; y; lo; la] end.
Definition no_name {O} (c : save_call O) : Prop := saved_name c = None.

(** ** Proofs *)
Lemma same_name_eq : forall a b, same_name a b = true <-> a = b.
Proof. intros a b. unfold same_name. destruct (list_eq_dec ascii_dec a b); split; congruence. Qed.
Lemma read_write_same : forall fs n b, read_bytes (write_bytes fs n b) n = Some b.
Proof. intros. unfold read_bytes, write_bytes. cbn [find fst]. rewrite (proj2 (same_name_eq n n) eq_refl). reflexivity. Qed.
Lemma read_write_other : forall fs n m b, m <> n -> read_bytes (write_bytes fs n b) m = read_bytes fs m.
Proof.
  intros fs n m b H. unfold read_bytes, write_bytes. cbn [find fst]. destruct (same_name n m) eqn:E; [|reflexivity].
  apply same_name_eq in E. congruence.
Qed.

Section PICKLE.
Variable O : Type.
Variable dumps : list O -> pystr.
Variable loads : pystr -> option (list O).
Variable can_open : pystr -> bool.
(** Assumed of pickle: loading what was dumped gives it back. *)
Hypothesis loads_dumps : forall o, loads (dumps o) = Some o.

Lemma save_cases : forall (c : save_call O) fs, do_save O dumps can_open c fs =
  match saved_name c with
  | None => Ok (fs, Some (dumps (contents c)))
  | Some n => if can_open n then Ok (write_bytes fs n (dumps (contents c)), None) else Err OSError
  end.
Proof. intros [lo la co [[|a n]|]|t x y lo la [[|a n]|]] fs; reflexivity. Qed.
Lemma saves_app : forall (a b : list (save_call O)) fs, do_saves O dumps can_open (a ++ b) fs = bind (do_saves O dumps can_open a fs) (do_saves O dumps can_open b).
Proof.
  induction a as [|c a IH]; intros b fs; [reflexivity|]. cbn [app do_saves]. destruct (do_save O dumps can_open c fs) as [p|e]; cbn [bind]; [apply IH|reflexivity].
Qed.

(** Files that no call names are as before, whatever is saved. *)
Theorem C97_other_files : forall (cs : list (save_call O)) fs fs' m, (forall c, In c cs -> saved_name c <> Some m) ->
  do_saves O dumps can_open cs fs = Ok fs' -> read_bytes fs' m = read_bytes fs m.
Proof using.
  induction cs as [|c cs IH]; intros fs fs' m H E; [injection E as <-; reflexivity|]. cbn [do_saves] in E. rewrite save_cases in E.
  destruct (saved_name c) as [n|] eqn:N.
  - destruct (can_open n); [|discriminate E]. cbn [bind fst] in E. rewrite (IH _ _ m (fun d Hd => H d (or_intror Hd)) E). apply read_write_other.
    intros K. apply (H c (or_introl eq_refl)). congruence.
  - cbn [bind fst] in E. exact (IH _ _ m (fun d Hd => H d (or_intror Hd)) E).
Qed.

(** After any history of saving, a file holds what was last saved under its name. *)
Theorem C97_last_saved : forall pre (c : save_call O) post fs fs' n, saved_name c = Some n ->
  (forall d, In d post -> saved_name d <> Some n) -> do_saves O dumps can_open (pre ++ c :: post) fs = Ok fs' ->
  load_pixel_corner_lookup O loads fs' n = Ok (contents c) /\ load_pixel_lookup O loads fs' n = Ok (contents c).
Proof using loads_dumps.
  intros pre c post fs fs' n N H E. rewrite saves_app in E. destruct (do_saves O dumps can_open pre fs) as [f1|e]; [|discriminate E]. cbn [bind do_saves] in E.
  rewrite save_cases, N in E. destruct (can_open n); [|discriminate E]. cbn [bind fst] in E.
  assert (R : load_object O loads fs' n = Ok (contents c)).
  { unfold load_object. rewrite (C97_other_files post _ _ n H E), read_write_same, loads_dumps. reflexivity. }
  split; exact R.
Qed.

(** Without a name (or with an empty one) nothing is written and the bytes are returned. *)
Theorem C97_without_name : forall (c : save_call O) fs, no_name c ->
  exists b, do_save O dumps can_open c fs = Ok (fs, Some b) /\ loads b = Some (contents c) /\
    forall n fs', read_bytes fs' n = Some b -> load_pixel_lookup O loads fs' n = Ok (contents c).
Proof using loads_dumps.
  intros c fs N. exists (dumps (contents c)). rewrite save_cases, N. split; [reflexivity|]. split; [apply loads_dumps|].
  intros n fs' R. unfold load_pixel_lookup, load_object. rewrite R, loads_dumps. reflexivity.
Qed.

(** A name never saved cannot be loaded, whatever else was. *)
Theorem C97_never_saved : forall (cs : list (save_call O)) fs fs' m, read_bytes fs m = None -> (forall c, In c cs -> saved_name c <> Some m) ->
  do_saves O dumps can_open cs fs = Ok fs' ->
  load_pixel_corner_lookup O loads fs' m = Err FileNotFoundError /\ load_pixel_lookup O loads fs' m = Err FileNotFoundError.
Proof using.
  intros cs fs fs' m R H E. unfold load_pixel_corner_lookup, load_pixel_lookup, load_object.
  rewrite (C97_other_files cs fs fs' m H E), R. split; reflexivity.
Qed.

(** Saving works exactly if the names can be opened. *)
Theorem C97_saving_works : forall (cs : list (save_call O)) fs,
  (exists fs', do_saves O dumps can_open cs fs = Ok fs') <-> (forall c n, In c cs -> saved_name c = Some n -> can_open n = true).
Proof using.
  induction cs as [|c cs IH]; intros fs.
  - split; [intros _ c n []|]. intros _. exists fs. reflexivity.
  - cbn [do_saves]. rewrite save_cases. split.
    + intros [fs' E] d n [<-|Hd] N.
      * rewrite N in E. destruct (can_open n); [reflexivity|discriminate E].
      * destruct (saved_name c) as [m|]; [destruct (can_open m); [|discriminate E]|]; cbn [bind fst] in E; exact (proj1 (IH _) (ex_intro _ fs' E) d n Hd N).
    + intros H. assert (T : forall d n, In d cs -> saved_name d = Some n -> can_open n = true) by (intros d n Hd; apply H; right; exact Hd).
      destruct (saved_name c) as [m|] eqn:N; [rewrite (H c m (or_introl eq_refl) N)|]; cbn [bind fst]; apply IH; exact T.
Qed.

(** What is loaded has as many parts as were saved: corners unpack into their three parts.
    A lookup is said to come back as (lookup, X, Y), equivalent to what create_pixel_lookup
    returns; it never does: unpacking three parts raises, there are always five. *)
Theorem C97_three_parts_refuted : forall pre post fs fs' n, (forall d : save_call O, In d post -> saved_name d <> Some n) ->
  (forall t x y lo la, saved_name (SaveLookup O t x y lo la (Some n)) = Some n -> do_saves O dumps can_open (pre ++ SaveLookup O t x y lo la (Some n) :: post) fs = Ok fs' ->
     bind (load_pixel_lookup O loads fs' n) unpack3 = Err ValueError /\ bind (load_pixel_lookup O loads fs' n) unpack5 = Ok (t, x, y, lo, la)) /\
  (forall lo la co, saved_name (SaveCorners O lo la co (Some n)) = Some n -> do_saves O dumps can_open (pre ++ SaveCorners O lo la co (Some n) :: post) fs = Ok fs' ->
     bind (load_pixel_corner_lookup O loads fs' n) unpack3 = Ok (lo, la, co)).
Proof using loads_dumps.
  intros pre post fs fs' n H. split.
  - intros t x y lo la N E. rewrite (proj2 (C97_last_saved _ _ _ _ _ _ N H E)). split; reflexivity.
  - intros lo la co N E. rewrite (proj1 (C97_last_saved _ _ _ _ _ _ N H E)). reflexivity.
Qed.

(** A process that ends while saving: neither the old nor the new contents can be loaded,
    wherever it ends before the last byte.  (Assumed of pickle: no proper beginning of a pickle
    can be loaded.) *)
Theorem C97_interrupted_refuted : (forall o k, (k < List.length (dumps o))%nat -> loads (firstn k (dumps o)) = None) ->
  forall (old new : list O) fs n k, load_pixel_lookup O loads fs n = Ok old ->
    let after := interrupted O dumps new n k fs in
    ((k < List.length (dumps new))%nat -> load_pixel_lookup O loads after n = Err ValueError) /\
    ((List.length (dumps new) <= k)%nat -> load_pixel_lookup O loads after n = Ok new) /\
    (forall m, m <> n -> read_bytes after m = read_bytes fs m).
Proof using loads_dumps.
  intros NP old new fs n k L after. unfold after, interrupted, load_pixel_lookup, load_object. split; [|split].
  - intros K. rewrite read_write_same, (NP new k K). reflexivity.
  - intros K. rewrite read_write_same, firstn_all2 by exact K. rewrite loads_dumps. reflexivity.
  - intros m M. apply read_write_other. exact M.
Qed.
End PICKLE.
Print Assumptions C97_other_files.
Print Assumptions C97_last_saved.
Print Assumptions C97_without_name.
Print Assumptions C97_never_saved.
Print Assumptions C97_saving_works.
Print Assumptions C97_three_parts_refuted.
Print Assumptions C97_interrupted_refuted.

(** A coding that meets what is assumed of pickle: numbers in unary, a full stop at the end. *)
Definition ex_dumps (l : list nat) : pystr := List.concat (map (fun n => repeat "1"%char n ++ ["0"%char]) l) ++ ["."%char].
Fixpoint ex_parse (n : nat) (s : pystr) : option (list nat) :=
  match s with
  | ["."%char] => if Nat.eqb n 0 then Some [] else None
  | "1"%char :: r => ex_parse (S n) r
  | "0"%char :: r => match ex_parse 0 r with Some l => Some (n :: l) | None => None end
  | _ => None
  end.
Lemma ex_ones : forall k n r, ex_parse n (repeat "1"%char k ++ r) = ex_parse (k + n) r.
Proof. induction k as [|k IH]; intros n r; [reflexivity|]. cbn [repeat app ex_parse plus]. rewrite IH. f_equal. lia. Qed.
Lemma ex_inverse : forall o, ex_parse 0 (ex_dumps o) = Some o.
Proof.
  induction o as [|n o IH]; [reflexivity|]. unfold ex_dumps in *. cbn [map List.concat]. rewrite <- !app_assoc, ex_ones. cbn [app ex_parse].
  rewrite IH, Nat.add_0_r. reflexivity.
Qed.
Lemma ex_no_stop : forall s n, ~ In "."%char s -> ex_parse n s = None.
Proof.
  induction s as [|a s IH]; intros n H; [reflexivity|]. assert (A : a <> "."%char) by (intros ->; apply H; left; reflexivity).
  assert (T : ~ In "."%char s) by (intros K; apply H; right; exact K).
  destruct (ascii_dec a "1"%char) as [->|A1]; [cbn; apply IH; exact T|]. destruct (ascii_dec a "0"%char) as [->|A0]; [cbn; rewrite (IH 0%nat T); reflexivity|].
  destruct a as [[|] [|] [|] [|] [|] [|] [|] [|]]; try reflexivity; exfalso; congruence.
Qed.
Lemma ex_prefix : forall o k, (k < List.length (ex_dumps o))%nat -> ex_parse 0 (firstn k (ex_dumps o)) = None.
Proof.
  intros o k K. apply ex_no_stop. unfold ex_dumps in *. rewrite app_length in K. cbn [List.length] in K. rewrite firstn_app.
  replace (k - List.length (List.concat (map (fun n => repeat "1"%char n ++ ["0"%char]) o)))%nat with 0%nat by lia. cbn [firstn]. rewrite app_nil_r.
  intros H. assert (H' : In "."%char (List.concat (map (fun n => repeat "1"%char n ++ ["0"%char]) o))) by (rewrite <- (firstn_skipn k); apply in_or_app; left; exact H).
  apply in_concat in H'. destruct H' as (l & H1 & H2). apply in_map_iff in H1. destruct H1 as (n & <- & _). apply in_app_or in H2.
  destruct H2 as [H2|[H2|[]]]; [apply repeat_spec in H2|]; discriminate H2.
Qed.
Example C97_hypotheses :
  (forall o, ex_parse 0 (ex_dumps o) = Some o) /\ (forall o k, (k < List.length (ex_dumps o))%nat -> ex_parse 0 (firstn k (ex_dumps o)) = None) /\
  let n := lit "lookup.pickle" in
  exists fs fs', do_saves nat ex_dumps (fun _ => true) ([SaveCorners nat 7 8 9 (Some n)] ++ SaveLookup nat 1 2 3 4 5 (Some n) :: [SaveLookup nat 1 2 3 4 5 None; SaveCorners nat 1 2 3 (Some (lit "c"))])%nat fs = Ok fs' /\
    load_pixel_lookup nat (ex_parse 0) fs' n = Ok [1; 2; 3; 4; 5]%nat /\
    load_pixel_lookup nat (ex_parse 0) (interrupted nat ex_dumps [6]%nat n 4 fs') n = Err ValueError /\
    load_pixel_lookup nat (ex_parse 0) (interrupted nat ex_dumps [6]%nat n 8 fs') n = Ok [6%nat].
Proof.
  split; [exact ex_inverse|]. split; [exact ex_prefix|]. exists []. eexists. split; [reflexivity|]. repeat split; reflexivity.
Qed.

(** * C98: the pixel of a location *)
(** ** Specification *)
(** The tables of a file: longitude and latitude of pixel (i, j), if it has a location. *)
Definition located (lons lats : arr2 fval) (i j : nat) (lon lat : Q) : Prop := at2 lons i j = Some (Some lon) /\ at2 lats i j = Some (Some lat).
(** Squared distance of two places, as the tree measures it. *)
Definition dist2 (a b : Q * Q) : Q := ((fst a - fst b) * (fst a - fst b) + (snd a - snd b) * (snd a - snd b))%Q.
(** What a query of the tree for [p] may answer: a row nearest to it. *)
Definition answers (rows : list (Q * Q)) (p : Q * Q) (k : nat) : Prop :=
  exists r, nth_error rows k = Some r /\ forall q, In q rows -> (dist2 p r <= dist2 p q)%Q.

(** ** Proofs *)
Lemma at2_map : forall {A B} (f : A -> B) (a : arr2 A) i j, at2 (map (map f) a) i j = option_map f (at2 a i j).
Proof.
  intros A B f a i j. unfold at2. rewrite nth_error_map. destruct (nth_error a i) as [row|]; cbn [option_map]; [apply nth_error_map|reflexivity].
Qed.
Lemma rect_map : forall {A B} (f : A -> B) nx ny (a : arr2 A), rectangular nx ny a -> rectangular nx ny (map (map f) a).
Proof.
  intros A B f nx ny a [H1 H2]. split; [rewrite map_length; exact H1|]. intros row H. apply in_map_iff in H. destruct H as (r & <- & H). rewrite map_length. apply H2. exact H.
Qed.
Lemma rect_at2 : forall {A} nx ny (a : arr2 A) i j, rectangular nx ny a -> (i < nx)%nat -> (j < ny)%nat -> exists v, at2 a i j = Some v.
Proof.
  intros A nx ny a i j [H1 H2] Hi Hj. unfold at2. destruct (nth_error a i) as [row|] eqn:E; [|apply nth_error_None in E; lia].
  pose proof (H2 row (nth_error_In _ _ E)) as L. destruct (nth_error row j) as [v|] eqn:F; [exists v; reflexivity|apply nth_error_None in F; lia].
Qed.
Lemma at2_rect : forall {A} nx ny (a : arr2 A) i j v, rectangular nx ny a -> at2 a i j = Some v -> (i < nx)%nat /\ (j < ny)%nat.
Proof.
  intros A nx ny a i j v [H1 H2] E. unfold at2 in E. destruct (nth_error a i) as [row|] eqn:R; [|discriminate E].
  assert (L : (i < List.length a)%nat) by (apply nth_error_Some; congruence). pose proof (H2 row (nth_error_In _ _ R)) as L'.
  assert (J : (j < List.length row)%nat) by (apply nth_error_Some; congruence). lia.
Qed.
Lemma mat_shaped : forall nx ny (a : arr2 fval) s, rectangular nx ny a -> well_shaped nx ny (masked_nan a s).
Proof. intros nx ny a s R. split; cbn; [apply rect_map; exact R|]. intros m M. injection M as <-. apply rect_map. exact R. Qed.
Lemma mat_masked : forall (a : arr2 fval) s i j, masked (masked_nan a s) i j <-> at2 a i j = Some None.
Proof.
  intros a s i j. unfold masked, masked_nan. cbn [nd_mask]. split.
  - intros (m & M & H). injection M as <-. rewrite at2_map in H. unfold fval in *. destruct (at2 a i j) as [[q|]|]; cbn in H; [discriminate H|reflexivity|discriminate H].
  - intros H. eexists. split; [reflexivity|]. unfold fval in *. rewrite at2_map, H. reflexivity.
Qed.
Lemma mat_usable : forall nx ny lons lats i j, rectangular nx ny lons -> rectangular nx ny lats ->
  (usable nx ny (fst (read_pixel_location_mat_file lats lons)) (snd (read_pixel_location_mat_file lats lons)) i j <-> exists lon lat, located lons lats i j lon lat).
Proof.
  intros nx ny lons lats i j R1 R2. unfold usable, read_pixel_location_mat_file. cbn [fst snd]. rewrite !mat_masked. split.
  - intros (Hi & Hj & M1 & M2). destruct (rect_at2 nx ny lons i j R1 Hi Hj) as ([x|] & E1); [|contradiction]. destruct (rect_at2 nx ny lats i j R2 Hi Hj) as ([y|] & E2); [|contradiction].
    exists x, y. split; assumption.
  - intros (x & y & E1 & E2). destruct (at2_rect _ _ _ _ _ _ R1 E1) as [Hi Hj]. rewrite E1, E2. repeat split; auto; discriminate.
Qed.

(** Every pixel with a location in the file is in the lookup once, and no other; its row is
    the longitude less 360 and the latitude. *)
Theorem C98_lookup_of_file : forall nx ny lons lats, (0 < nx)%nat -> rectangular nx ny lons -> rectangular nx ny lats ->
  exists rows X Y, create_pixel_lookup (fst (read_pixel_location_mat_file lats lons)) (snd (read_pixel_location_mat_file lats lons)) = Ok (rows, X, Y) /\
    List.length X = List.length rows /\ List.length Y = List.length rows /\
    (forall k i j, nth_error X k = Some i -> nth_error Y k = Some j ->
       exists lon lat r, located lons lats i j lon lat /\ nth_error rows k = Some r /\ (fst r == lon - 360)%Q /\ (snd r == lat)%Q) /\
    (forall i j lon lat, located lons lats i j lon lat -> exists k, nth_error X k = Some i /\ nth_error Y k = Some j /\
       forall k', nth_error X k' = Some i -> nth_error Y k' = Some j -> k' = k).
Proof.
  intros nx ny lons lats N R1 R2. set (lo := fst (read_pixel_location_mat_file lats lons)). set (la := snd (read_pixel_location_mat_file lats lons)).
  destruct (C47_rows_are_pixels nx ny lo la N (mat_shaped _ _ _ _ R1) (mat_shaped _ _ _ _ R2)) as (rows & X & Y & E & L1 & L2 & F & B).
  { split; intros _; discriminate. }
  exists rows, X, Y. split; [exact E|]. split; [exact L1|]. split; [exact L2|]. split.
  - intros k i j HX HY. destruct (F k i j HX HY) as (U & a & b & G & A1 & A2). apply (mat_usable nx ny lons lats i j R1 R2) in U. destruct U as (x & y & E1 & E2).
    exists x, y, (a, b). split; [split; assumption|]. split; [exact G|]. unfold lo, la, read_pixel_location_mat_file, masked_nan in A1, A2. cbn [fst snd nd_data] in A1, A2.
    unfold fval in *. rewrite at2_map, E1 in A1. rewrite at2_map, E2 in A2. cbn [option_map] in A1, A2. injection A1 as <-. injection A2 as <-. cbn [fst snd]. split; ring.
  - intros i j x y H. apply B. apply (mat_usable nx ny lons lats i j R1 R2). exists x, y. exact H.
Qed.
Print Assumptions C98_lookup_of_file.

(** If the file gives east longitudes between 180 and 360, asking for a place in degrees
    east (west negative) as (lon, lat) finds the nearest pixel. *)
Theorem C98_nearest_partial : forall nx ny lons lats rows X Y lon lat k i j, (0 < nx)%nat -> rectangular nx ny lons -> rectangular nx ny lats ->
  create_pixel_lookup (fst (read_pixel_location_mat_file lats lons)) (snd (read_pixel_location_mat_file lats lons)) = Ok (rows, X, Y) ->
  (forall i j x y, located lons lats i j x y -> 180 <= x < 360)%Q ->
  answers rows (lon, lat) k -> nth_error X k = Some i -> nth_error Y k = Some j ->
  exists x y, located lons lats i j x y /\ (-180 <= x - 360 < 0)%Q /\
    forall i' j' x' y', located lons lats i' j' x' y' -> (dist2 (lon, lat) (x - 360, y) <= dist2 (lon, lat) (x' - 360, y'))%Q.
Proof.
  intros nx ny lons lats rows X Y lon lat k i j N R1 R2 E RG (r & Hr & Hmin) HX HY.
  destruct (C98_lookup_of_file nx ny lons lats N R1 R2) as (rows' & X' & Y' & E' & L1 & L2 & F & B). rewrite E in E'. injection E' as <- <- <-.
  destruct (F k i j HX HY) as (x & y & r' & HL & Hr' & D1 & D2). assert (r' = r) by congruence. subst r'.
  exists x, y. split; [exact HL|]. split; [specialize (RG i j x y HL); lra|]. intros i' j' x' y' HL'.
  destruct (B i' j' x' y' HL') as (k' & HX' & HY' & _). destruct (F k' i' j' HX' HY') as (x2 & y2 & r2 & [G1 G2] & Hr2 & D3 & D4). destruct HL' as [G3 G4].
  assert (x2 = x') by congruence. assert (y2 = y') by congruence. subst x2 y2. pose proof (Hmin r2 (nth_error_In _ _ Hr2)) as M.
  unfold dist2 in *. cbn [fst snd] in *. rewrite D1, D2, D3, D4 in M. exact M.
Qed.
Print Assumptions C98_nearest_partial.

(** With longitudes that are already west negative (or east of 0), every pixel is listed
    beyond 180 west, where no location is: a pixel exactly at the place asked for can lose
    against another one. *)
Theorem C98_west_negative_refuted :
  (forall nx ny lons lats rows X Y, (0 < nx)%nat -> rectangular nx ny lons -> rectangular nx ny lats ->
     create_pixel_lookup (fst (read_pixel_location_mat_file lats lons)) (snd (read_pixel_location_mat_file lats lons)) = Ok (rows, X, Y) ->
     forall k i j x y, nth_error X k = Some i -> nth_error Y k = Some j -> located lons lats i j x y -> (x < 180)%Q ->
       exists r, nth_error rows k = Some r /\ (fst r < -180)%Q) /\
  exists lons lats rows X Y k i j, rectangular 1 2 lons /\ rectangular 1 2 lats /\
    create_pixel_lookup (fst (read_pixel_location_mat_file lats lons)) (snd (read_pixel_location_mat_file lats lons)) = Ok (rows, X, Y) /\
    located lons lats 0 0 (-75) 30 /\ answers rows (-75, 30)%Q k /\ nth_error X k = Some i /\ nth_error Y k = Some j /\ (i, j) <> (0, 0)%nat.
Proof.
  split.
  - intros nx ny lons lats rows X Y N R1 R2 E k i j x y HX HY [H1 H2] W.
    destruct (C98_lookup_of_file nx ny lons lats N R1 R2) as (rows' & X' & Y' & E' & _ & _ & F & _). rewrite E in E'. injection E' as <- <- <-.
    destruct (F k i j HX HY) as (x' & y' & r & [G1 G2] & Hr & D1 & _). assert (x' = x) by congruence. subst x'. exists r. split; [exact Hr|]. lra.
  - exists [[Some (-75)%Q; Some (-60)%Q]], [[Some 30%Q; Some 30%Q]]. eexists _, _, _, 1%nat, 0%nat, 1%nat.
    split; [split; [reflexivity|intros row [<-|[]]; reflexivity]|]. split; [split; [reflexivity|intros row [<-|[]]; reflexivity]|]. split; [reflexivity|].
    split; [split; reflexivity|]. split; [|repeat split; discriminate].
    eexists. split; [reflexivity|]. intros q [<-|[<-|[]]]; vm_compute; discriminate.
Qed.
Print Assumptions C98_west_negative_refuted.

(** The documented query is (lat, lon), but the rows are (lon, lat): the answer is the pixel
    nearest to the place with the two exchanged. *)
Theorem C98_documented_query_refuted :
  (forall nx ny lons lats rows X Y lon lat k i j, (0 < nx)%nat -> well_shaped nx ny lons -> well_shaped nx ny lats -> (is_masked_array lons <-> is_masked_array lats) ->
     create_pixel_lookup lons lats = Ok (rows, X, Y) -> answers rows (lat, lon) k -> nth_error X k = Some i -> nth_error Y k = Some j ->
     exists x y, at2 (nd_data lons) i j = Some x /\ at2 (nd_data lats) i j = Some y /\
       forall i' j' x' y', usable nx ny lons lats i' j' -> at2 (nd_data lons) i' j' = Some x' -> at2 (nd_data lats) i' j' = Some y' ->
         (dist2 (lon, lat) (y, x) <= dist2 (lon, lat) (y', x'))%Q) /\
  exists lons lats rows X Y k i j, well_shaped 1 2 lons /\ well_shaped 1 2 lats /\ create_pixel_lookup lons lats = Ok (rows, X, Y) /\
    at2 (nd_data lons) 0 0 = Some (-203 # 2)%Q /\ at2 (nd_data lats) 0 0 = Some (67 # 2)%Q /\
    answers rows (67 # 2, -203 # 2)%Q k /\ nth_error X k = Some i /\ nth_error Y k = Some j /\ (i, j) <> (0, 0)%nat.
Proof.
  split.
  - intros nx ny lons lats rows X Y lon lat k i j N W1 W2 M E (r & Hr & Hmin) HX HY. destruct r as [x y].
    destruct (C47_nearest_pixel nx ny lons lats rows X Y dist2 (lat, lon) k x y N W1 W2 M E Hr Hmin) as (i' & j' & HX' & HY' & U & A1 & A2 & B).
    assert (i' = i) by congruence. assert (j' = j) by congruence. subst i' j'. exists x, y. split; [exact A1|]. split; [exact A2|].
    intros i' j' x' y' U' B1 B2. specialize (B i' j' x' y' U' B1 B2). unfold dist2 in *. cbn [fst snd] in *. lra.
  - exists (mkArr [[-203 # 2; -60]]%Q None), (mkArr [[67 # 2; -40]]%Q None). eexists _, _, _, 1%nat, 0%nat, 1%nat.
    assert (W : forall a b : Q, well_shaped 1 2 (mkArr [[a; b]] None)) by (intros a b; split; [split; [reflexivity|intros row [<-|[]]; reflexivity]|discriminate]).
    split; [apply W|]. split; [apply W|]. split; [reflexivity|]. split; [reflexivity|]. split; [reflexivity|]. split; [|repeat split; discriminate].
    eexists. split; [reflexivity|]. intros q [<-|[<-|[]]]; vm_compute; discriminate.
Qed.
Print Assumptions C98_documented_query_refuted.

Example C98_hypotheses : let lons := [[Some 285; None]; [Some 300; Some 240]]%Q in let lats := [[Some 30; Some 31]; [Some 32; Some 33]]%Q in
  rectangular 2 2 lons /\ rectangular 2 2 lats /\ (forall i j x y, located lons lats i j x y -> 180 <= x < 360)%Q /\
  exists rows X Y, create_pixel_lookup (fst (read_pixel_location_mat_file lats lons)) (snd (read_pixel_location_mat_file lats lons)) = Ok (rows, X, Y) /\
    answers rows (-61, 32)%Q 1 /\ nth_error X 1 = Some 1%nat /\ nth_error Y 1 = Some 0%nat.
Proof.
  cbn zeta. split; [split; [reflexivity|intros row [<-|[<-|[]]]; reflexivity]|]. split; [split; [reflexivity|intros row [<-|[<-|[]]]; reflexivity]|]. split.
  - intros [|[|i]] [|[|j]] x y [H _]; cbn in H; try (destruct i; discriminate H); try (destruct j; discriminate H); try discriminate H; injection H as <-; lra.
  - eexists _, _, _. split; [reflexivity|]. split; [|split; reflexivity]. eexists. split; [reflexivity|].
    intros q [<-|[<-|[<-|[]]]]; vm_compute; discriminate.
Qed.
