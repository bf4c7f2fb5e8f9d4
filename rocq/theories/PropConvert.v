(** C96: the dataset made from an ASCII listing. *)
From Coq Require Import List ZArith QArith Bool Ascii String Lia.
From Verif Require Import Base BaseProofs FileName Lcfa LcfaSpec LcfaProofs PropLcfa Traversal TraversalSpec PropTraversal Glm Convert.
Import ListNotations.
Open Scope Z_scope.

(** * Specification *)
(** A number of the listing, and the entry it becomes. *)
Inductive lnum := LZ (z : zlit) | LD (d : dlit).
Definition says (l : lnum) (v : value) : Prop :=
  match l, v with LZ z, VI n => n = zvalue z | LD d, VF q => (q == dvalue d)%Q | _, _ => False end.
(** The variables of the production format for each kind of line: name, whether it is a
    coordinate, and the number in the line. *)
Definition flash_fields : list (string * bool * (lflash -> lnum)) :=
  [("flash_id", true, fun l => LZ (lf_id l)); ("flash_time_offset_of_first_event", true, fun l => LD (lf_first l));
   ("flash_time_offset_of_last_event", true, fun l => LD (lf_last l)); ("flash_lat", true, fun l => LD (lf_lat l));
   ("flash_lon", true, fun l => LD (lf_lon l)); ("flash_energy", false, fun l => LD (lf_energy l));
   ("flash_area", false, fun l => LD (lf_area l)); ("flash_child_group_count", false, fun l => LZ (lf_children l))]%string.
Definition group_fields : list (string * bool * (lgroup -> lnum)) :=
  [("group_id", true, fun l => LZ (lg_id l)); ("group_time_offset", true, fun l => LD (lg_first l));
   ("group_lat", true, fun l => LD (lg_lat l)); ("group_lon", true, fun l => LD (lg_lon l));
   ("group_energy", false, fun l => LD (lg_energy l)); ("group_area", false, fun l => LD (lg_area l));
   ("group_parent_flash_id", true, fun l => LZ (lg_parent l)); ("group_child_event_count", false, fun l => LZ (lg_children l))]%string.
Definition event_fields : list (string * bool * (levent -> lnum)) :=
  [("event_id", true, fun l => LZ (le_id l)); ("event_time_offset", true, fun l => LD (le_time l));
   ("x_pixel", false, fun l => LZ (le_x l)); ("y_pixel", false, fun l => LZ (le_y l));
   ("event_lat", true, fun l => LD (le_lat l)); ("event_lon", true, fun l => LD (le_lon l));
   ("event_energy", false, fun l => LD (le_energy l)); ("event_parent_group_id", true, fun l => LZ (le_parent l))]%string.
(** The dataset has these variables along [dim], with the numbers of the lines [ls] in order. *)
Definition holds_lines {L} (ds : list var) (dim : string) (fields : list (string * bool * (L -> lnum))) (ls : list L) : Prop :=
  forall name coord field, In (name, coord, field) fields ->
    exists v, In v ds /\ v_name v = name /\ v_dim v = dim /\ v_coord v = coord /\ Forall2 (fun l x => says (field l) x) ls (v_values v).
(** A nested listing: every flash followed by its groups, every group by its events. *)
Definition nested := list (lflash * list (lgroup * list levent)).
Definition group_items (p : lgroup * list levent) : list item := IGroup (fst p) :: map IEvent (snd p).
Definition flash_items (p : lflash * list (lgroup * list levent)) : list item := IFlash (fst p) :: flat_map group_items (snd p).
Definition items_of (L : nested) : list item := flat_map flash_items L.
Definition all_groups (L : nested) : list (lgroup * list levent) := flat_map snd L.
Definition all_events (L : nested) : list levent := flat_map snd (all_groups L).
(** The parent ids in the lines are those of the lines above. *)
Definition parents_right (L : nested) : Prop :=
  (forall f gs, In (f, gs) L -> forall p, In p gs -> zvalue (lg_parent (fst p)) = zvalue (lf_id f)) /\
  (forall g es, In (g, es) (all_groups L) -> forall e, In e es -> zvalue (le_parent e) = zvalue (lg_id g)).
Definition ids_distinct (L : nested) : Prop :=
  NoDup (map (fun p => zvalue (lf_id (fst p))) L) /\ NoDup (map (fun p => zvalue (lg_id (fst p))) (all_groups L)) /\
  NoDup (map (fun e => zvalue (le_id e)) (all_events L)).

(** * Proofs *)
Definition made (fl : list flash) (gr : list group) (ev : list event) : list var :=
  let c dim n := mkV dim dim (map (fun k => VI (Z.of_nat k)) (seq 0 n)) true in
  let e n b (f : event -> value) := mkV n "number_of_events" (map f ev) b in
  let g n b (f : group -> value) := mkV n "number_of_groups" (map f gr) b in
  let h n b (f : flash -> value) := mkV n "number_of_flashes" (map f fl) b in
  [c "number_of_events" (List.length ev);
   e "event_id" true (fun x => VI (e_id x)); e "event_time_offset" true (fun x => VF (e_time x)); e "x_pixel" false (fun x => VI (e_x x));
   e "y_pixel" false (fun x => VI (e_y x)); e "event_lat" true (fun x => VF (e_lat x)); e "event_lon" true (fun x => VF (e_lon x));
   e "event_energy" false (fun x => VF (e_energy x)); e "event_parent_group_id" true (fun x => VI (e_parent x));
   c "number_of_groups" (List.length gr);
   g "group_id" true (fun x => VI (g_id x)); g "group_time_offset" true (fun x => VF (g_time x)); g "group_lat" true (fun x => VF (g_lat x));
   g "group_lon" true (fun x => VF (g_lon x)); g "group_energy" false (fun x => VF (g_energy x)); g "group_area" false (fun x => VF (g_area x));
   g "group_parent_flash_id" true (fun x => VI (g_parent x)); g "group_child_event_count" false (fun x => VI (g_children x));
   c "number_of_flashes" (List.length fl);
   h "flash_id" true (fun x => VI (f_id x)); h "flash_time_offset_of_first_event" true (fun x => VF (f_first x));
   h "flash_time_offset_of_last_event" true (fun x => VF (f_last x)); h "flash_lat" true (fun x => VF (f_lat x));
   h "flash_lon" true (fun x => VF (f_lon x)); h "flash_energy" false (fun x => VF (f_energy x)); h "flash_area" false (fun x => VF (f_area x));
   h "flash_child_group_count" false (fun x => VI (f_children x))]%string.
Lemma made_ok : forall fl gr ev, merge_dataframes_to_xarray fl gr ev = Ok (made fl gr ev).
Proof.
  intros fl gr ev. unfold merge_dataframes_to_xarray, merge, set_coords, to_xarray, flash_col_names, group_col_names, event_col_names, nc_coords.
  cbn [List.length seq combine map fst snd]. rewrite !map_map, !map_length. unfold made, event_row, group_row, flash_row. cbn [nth].
  reflexivity.
Qed.
Lemma forall2_map : forall {A B C} (R : A -> C -> Prop) (f : B -> C) (S : A -> B -> Prop) l l', (forall a b, S a b -> R a (f b)) -> Forall2 S l l' -> Forall2 R l (map f l').
Proof. intros A B C R f S l l' H F. induction F; cbn [map]; constructor; auto. Qed.

Lemma distinct_names : forall l : list string, (fix go l := match l with [] => true | a :: r => negb (existsb (String.eqb a) r) && go r end) l = true -> NoDup l.
Proof.
  induction l as [|a l IH]; intros H; [constructor|]. apply andb_true_iff in H. destruct H as [H1 H2]. constructor; [|apply IH; exact H2].
  intros K. apply negb_true_iff in H1. assert (E : existsb (String.eqb a) l = true) by (apply existsb_exists; exists a; split; [exact K|apply String.eqb_refl]). congruence.
Qed.

Ltac pick := (left; reflexivity) + (right; pick).
Ltac one_field IS K := injection K as <- <- <-;
  eexists; split; [unfold made; cbn [In]; pick|]; cbn [v_name v_dim v_coord v_values];
  (split; [reflexivity|]); (split; [reflexivity|]); (split; [reflexivity|]); eapply forall2_map; [|eassumption]; unfold IS; cbn [says]; intros ? ? (? & ? & ? & ? & ? & ? & ? & ?); assumption.

(** The dataset made of a listing has, for each kind of line, the variables of the production
    format with the numbers of the lines in the order of the listing, each name once; the rest
    are the coordinates of the three dimensions. *)
Theorem C96_dataset_of_listing : forall body it, (forall p, In p body -> item_ok (fst p)) -> item_ok it ->
  exists ds, convert (file_text body (item_text it)) = Ok ds /\
    holds_lines ds "number_of_flashes" flash_fields (flashes_of (map fst body ++ [it])) /\
    holds_lines ds "number_of_groups" group_fields (groups_of (map fst body ++ [it])) /\
    holds_lines ds "number_of_events" event_fields (events_of (map fst body ++ [it])) /\
    NoDup (map v_name ds) /\
    (forall v, In v ds -> In (v_name v) (map (fun f => fst (fst f)) flash_fields ++ map (fun f => fst (fst f)) group_fields ++ map (fun f => fst (fst f)) event_fields) \/
       (v_name v = v_dim v /\ v_coord v = true /\ exists n, v_values v = map (fun k => VI (Z.of_nat k)) (seq 0 n) /\
          ((v_dim v = "number_of_flashes"%string /\ n = List.length (flashes_of (map fst body ++ [it]))) \/
           (v_dim v = "number_of_groups"%string /\ n = List.length (groups_of (map fst body ++ [it]))) \/
           (v_dim v = "number_of_events"%string /\ n = List.length (events_of (map fst body ++ [it])))))).
Proof.
  intros body it H Hit. destruct (C46_records_kept body it H Hit) as (fs & gs & es & E & F1 & F2 & F3).
  exists (made fs gs es). split; [unfold convert; rewrite E; cbn [bind fst snd]; apply made_ok|].
  assert (LEN : forall {A B} (R : A -> B -> Prop) l l', Forall2 R l l' -> List.length l = List.length l').
  { intros A B R l l' F. induction F; cbn [List.length]; congruence. }
  pose proof (LEN _ _ _ _ _ F1) as L1. pose proof (LEN _ _ _ _ _ F2) as L2. pose proof (LEN _ _ _ _ _ F3) as L3.
  split; [|split; [|split; [|split]]].
  - intros n c f K. unfold flash_fields in K. cbn [In] in K. repeat (destruct K as [K|K]; [one_field flash_is K|]). destruct K.
  - intros n c f K. unfold group_fields in K. cbn [In] in K. repeat (destruct K as [K|K]; [one_field group_is K|]). destruct K.
  - intros n c f K. unfold event_fields in K. cbn [In] in K. repeat (destruct K as [K|K]; [one_field event_is K|]). destruct K.
  - apply distinct_names. reflexivity.
  - intros v K. unfold made in K. cbn [In] in K.
    repeat (destruct K as [<-|K]; [first [left; cbn; pick |
      right; split; [reflexivity|]; split; [reflexivity|]; eexists; split; [reflexivity|]; cbn [v_dim]; first [left; split; [reflexivity|congruence] | right; left; split; [reflexivity|congruence] | right; right; split; [reflexivity|congruence]]]|]).
    destruct K.
Qed.
Print Assumptions C96_dataset_of_listing.

(** ** The tree *)
Lemma zids : forall {A B} (f : A -> Z) (g : B -> Z) (R : A -> B -> Prop) l l', (forall a b, R a b -> g b = f a) -> Forall2 R l l' -> map g l' = map f l.
Proof. intros A B f g R l l' H F. induction F as [|a b l l' K F IH]; [reflexivity|]. cbn [map]. rewrite IH, (H a b K). reflexivity. Qed.
Lemma ints_map : forall {A} (f : A -> Z) l, ints (map (fun x => VI (f x)) l) = Ok (map f l).
Proof. intros A f l. unfold ints. induction l as [|a l IH]; [reflexivity|]. cbn [map map_res bind]. rewrite IH. reflexivity. Qed.
Definition rows (is ps : list Z) : table nat := map (fun k => mkRow (nth k is 0) (nth k ps 0) k) (seq 0 (List.length is)).
Lemma map_nth_seq : forall (l : list Z), map (fun k => nth k l 0) (seq 0 (List.length l)) = l.
Proof.
  induction l as [|a l IH]; [reflexivity|]. cbn [List.length seq map nth]. f_equal. rewrite <- seq_shift, map_map. exact IH.
Qed.
Lemma rows_rid : forall is ps, map rid (rows is ps) = is.
Proof. intros. unfold rows. rewrite map_map. cbn [rid]. apply map_nth_seq. Qed.
Lemma rows_rpid : forall is ps, List.length ps = List.length is -> map rpid (rows is ps) = ps.
Proof. intros is ps L. unfold rows. rewrite map_map. cbn [rpid]. rewrite <- L. apply map_nth_seq. Qed.
Lemma tables_made : forall fl gr ev, tree_tables (made fl gr ev) =
  Ok [rows (map f_id fl) (map f_id fl); rows (map g_id gr) (map g_parent gr); rows (map e_id ev) (map e_parent ev)].
Proof.
  intros fl gr ev. unfold tree_tables, entity_table.
  change (getvar (made fl gr ev) "flash_id") with (Ok (mkV "flash_id" "number_of_flashes" (map (fun x => VI (f_id x)) fl) true)).
  change (getvar (made fl gr ev) "group_id") with (Ok (mkV "group_id" "number_of_groups" (map (fun x => VI (g_id x)) gr) true)).
  change (getvar (made fl gr ev) "event_id") with (Ok (mkV "event_id" "number_of_events" (map (fun x => VI (e_id x)) ev) true)).
  change (getvar (made fl gr ev) "group_parent_flash_id") with (Ok (mkV "group_parent_flash_id" "number_of_groups" (map (fun x => VI (g_parent x)) gr) true)).
  change (getvar (made fl gr ev) "event_parent_group_id") with (Ok (mkV "event_parent_group_id" "number_of_events" (map (fun x => VI (e_parent x)) ev) true)).
  repeat first [rewrite ints_map | progress cbn [bind v_values]]. reflexivity.
Qed.
(** Children of one parent in a nested listing. *)
Lemma children_of : forall {A B} (ida : A -> Z) (pid : B -> Z) (L : list (A * list B)) a bs,
  NoDup (map (fun p => ida (fst p)) L) -> (forall x ys, In (x, ys) L -> forall y, In y ys -> pid y = ida x) -> In (a, bs) L ->
  filter (fun b => pid b =? ida a) (flat_map snd L) = bs.
Proof.
  intros A B ida pid L a bs. induction L as [|[x ys] L IH]; intros ND P H; [destruct H|]. cbn [map fst] in ND. inversion ND as [|? ? NI ND']; subst.
  cbn [flat_map snd]. rewrite filter_app.
  assert (KEEP : forall (l : list B) (p : B -> bool), (forall y, In y l -> p y = true) -> filter p l = l).
  { intros l p K. induction l as [|y l IHl]; [reflexivity|]. cbn [filter]. rewrite (K y (or_introl eq_refl)), IHl; [reflexivity|]. intros z Hz. apply K. right. exact Hz. }
  assert (DROP : forall (l : list B) (p : B -> bool), (forall y, In y l -> p y = false) -> filter p l = []).
  { intros l p K. induction l as [|y l IHl]; [reflexivity|]. cbn [filter]. rewrite (K y (or_introl eq_refl)), IHl; [reflexivity|]. intros z Hz. apply K. right. exact Hz. }
  destruct H as [H|H].
  - injection H as -> ->. rewrite KEEP by (intros y Hy; apply Z.eqb_eq; apply (P a bs (or_introl eq_refl) y Hy)). rewrite DROP; [apply app_nil_r|].
    intros y Hy. apply Z.eqb_neq. intros K. apply in_flat_map in Hy. destruct Hy as ([z zs] & Hz & Hy). cbn [snd] in Hy. rewrite (P z zs (or_intror Hz) y Hy) in K.
    apply NI. rewrite <- K. apply in_map_iff. exists (z, zs). auto.
  - rewrite DROP.
    + apply IH; auto. intros z zs Hz. apply P. right. exact Hz.
    + intros y Hy. apply Z.eqb_neq. intros K. rewrite (P x ys (or_introl eq_refl) y Hy) in K. apply NI. rewrite K. apply in_map_iff. exists (a, bs). auto.
Qed.
Lemma counts_nested : forall {A B} (ida : A -> Z) (pid : B -> Z) (L : list (A * list B)),
  NoDup (map (fun p => ida (fst p)) L) -> (forall x ys, In (x, ys) L -> forall y, In y ys -> pid y = ida x) ->
  map (fun i => List.length (filter (fun j => j =? i) (map pid (flat_map snd L)))) (map (fun p => ida (fst p)) L) = map (fun p => List.length (snd p)) L.
Proof.
  intros A B ida pid L ND P. rewrite map_map. apply map_ext_in. intros [a bs] H. cbn [fst snd].
  assert (FM : forall l : list B, List.length (filter (fun j => j =? ida a) (map pid l)) = List.length (filter (fun b => pid b =? ida a) l)).
  { induction l as [|y l IH]; [reflexivity|]. cbn [map filter]. destruct (pid y =? ida a); cbn [List.length]; rewrite IH; reflexivity. }
  rewrite FM. f_equal. apply children_of; assumption.
Qed.
Lemma row_counts : forall (A B : table nat), map (fun r => List.length (filter (fun s => rpid s =? rid r) B)) A = map (fun i => List.length (filter (fun j => j =? i) (map rpid B))) (map rid A).
Proof.
  intros A B. rewrite map_map. apply map_ext. intros r. clear A. induction B as [|s B IH]; [reflexivity|]. cbn [map filter]. destruct (rpid s =? rid r); cbn [List.length]; rewrite IH; reflexivity.
Qed.
Lemma flat_map_app : forall {A B} (f : A -> list B) l l', flat_map f (l ++ l') = flat_map f l ++ flat_map f l'.
Proof. intros A B f l l'. induction l as [|a l IH]; [reflexivity|]. cbn [app flat_map]. rewrite IH, app_assoc. reflexivity. Qed.
Lemma listing_lines : forall L, flashes_of (items_of L) = map fst L /\ groups_of (items_of L) = map fst (all_groups L) /\ events_of (items_of L) = all_events L.
Proof.
  assert (EV : forall es, flashes_of (map IEvent es) = [] /\ groups_of (map IEvent es) = [] /\ events_of (map IEvent es) = es).
  { induction es as [|e es (I1 & I2 & I3)]; [repeat split|]. unfold flashes_of, groups_of, events_of in *. cbn [map flat_map app]. rewrite I1, I2, I3. auto. }
  assert (GR : forall gs, flashes_of (flat_map group_items gs) = [] /\ groups_of (flat_map group_items gs) = map fst gs /\ events_of (flat_map group_items gs) = flat_map snd gs).
  { induction gs as [|[g es] gs (I1 & I2 & I3)]; [repeat split|]. destruct (EV es) as (E1 & E2 & E3). unfold flashes_of, groups_of, events_of in *.
    cbn [flat_map group_items fst snd map app]. rewrite !flat_map_app, E1, E2, E3, I1, I2, I3. auto. }
  induction L as [|[f gs] L (I1 & I2 & I3)]; [repeat split|]. destruct (GR gs) as (G1 & G2 & G3). unfold items_of, all_events, all_groups, flashes_of, groups_of, events_of in *.
  cbn [flat_map flash_items fst snd map app]. rewrite !flat_map_app, G1, G2, G3, I1, I2, I3, map_app. auto.
Qed.
Lemma ext_nth : forall (l l' : list Z), List.length l = List.length l' -> (forall k a, nth_error l k = Some a -> nth_error l' k = Some a) -> l = l'.
Proof.
  induction l as [|a l IH]; intros [|b l'] LE H; try discriminate LE; [reflexivity|]. cbn [List.length] in LE. injection LE as LE.
  pose proof (H 0%nat a eq_refl) as H0. cbn in H0. injection H0 as ->. f_equal. apply IH; [exact LE|]. intros k x K. exact (H (S k) x K).
Qed.
(** Event [k] of the listing is under the group and the flash of this place. *)
Lemma event_place : forall (L : nested) k e, nth_error (all_events L) k = Some e ->
  exists f gs g es, In (f, gs) L /\ In (g, es) gs /\ In e es /\
    nth_error (flat_map (fun p => flat_map (fun q => map (fun _ => zvalue (lf_id (fst p))) (snd q)) (snd p)) L) k = Some (zvalue (lf_id f)).
Proof.
  intros L. unfold all_events, all_groups. induction L as [|[f gs] L IH]; intros k e H; [destruct k; discriminate H|].
  cbn [flat_map fst snd] in *. rewrite flat_map_app in H.
  assert (GS : forall gs k, match nth_error (flat_map snd gs) k with
     | Some e => exists g es, In (g, es) gs /\ In e es /\ nth_error (flat_map (fun q : lgroup * list levent => map (fun _ => zvalue (lf_id f)) (snd q)) gs) k = Some (zvalue (lf_id f))
     | None => (List.length (flat_map snd gs) <= k)%nat /\ List.length (flat_map (fun q : lgroup * list levent => map (fun _ => zvalue (lf_id f)) (snd q)) gs) = List.length (flat_map snd gs) end).
  { clear. induction gs as [|[g es] gs IH]; intros k.
    - destruct k; cbn; split; lia.
    - cbn [flat_map snd]. destruct (Nat.lt_ge_cases k (List.length es)) as [K|K].
      + rewrite nth_error_app1 by exact K. destruct (nth_error es k) as [e|] eqn:E; [|apply nth_error_None in E; lia].
        exists g, es. split; [left; reflexivity|]. split; [eapply nth_error_In; exact E|]. rewrite nth_error_app1 by (rewrite map_length; exact K).
        rewrite (map_nth_error (fun _ => zvalue (lf_id f)) k es E). reflexivity.
      + rewrite nth_error_app2 by exact K. specialize (IH (k - List.length es)%nat). destruct (nth_error (flat_map snd gs) (k - List.length es)) as [e|].
        * destruct IH as (g' & es' & I1 & I2 & I3). exists g', es'. split; [right; exact I1|]. split; [exact I2|]. rewrite nth_error_app2 by (rewrite map_length; exact K). rewrite map_length. exact I3.
        * destruct IH as [I1 I2]. rewrite !app_length, map_length. lia. }
  specialize (GS gs k). destruct (Nat.lt_ge_cases k (List.length (flat_map snd gs))) as [K|K].
  - rewrite nth_error_app1 in H by exact K. rewrite H in GS. destruct GS as (g & es & I1 & I2 & I3). exists f, gs, g, es.
    split; [left; reflexivity|]. split; [exact I1|]. split; [exact I2|]. rewrite nth_error_app1; [exact I3|]. apply nth_error_Some. rewrite I3. discriminate.
  - rewrite nth_error_app2 in H by exact K. assert (N : nth_error (flat_map snd gs) k = None) by (apply nth_error_None; exact K). rewrite N in GS. destruct GS as [_ GS].
    destruct (IH _ _ H) as (f' & gs' & g & es & I1 & I2 & I3 & I4). exists f', gs', g, es. split; [right; exact I1|]. split; [exact I2|]. split; [exact I3|].
    rewrite nth_error_app2 by lia. rewrite GS. exact I4.
Qed.

(** A nested listing with distinct ids becomes a consistent tree.  Every event is given the
    flash under which it is listed, and the children counted are the lines below. *)
Theorem C96_tree_of_listing : forall body it L, (forall p, In p body -> item_ok (fst p)) -> item_ok it ->
  filter (fun i => match i with IOther _ => false | _ => true end) (map fst body ++ [it]) = items_of L -> parents_right L -> ids_distinct L -> all_events L <> [] ->
  exists ds tables tv, convert (file_text body (item_text it)) = Ok ds /\ tree_tables ds = Ok tables /\
    trav_init tables entity_ids parent_ids = Ok tv /\ consistent tables /\
    replicate_parent_ids tv "flash_id" "event_parent_group_id" =
      Ok (flat_map (fun p => flat_map (fun q => map (fun _ => zvalue (lf_id (fst p))) (snd q)) (snd p)) L) /\
    count_children tv "flash_id" (Some "event_id"%string) =
      Ok [map (fun p => List.length (snd p)) L; map (fun p => List.length (snd p)) (all_groups L)].
Proof.
  intros body it L H Hit EI (PG & PE) (DF & DG & DE) NE.
  destruct (C46_records_kept body it H Hit) as (fs & gs & es & E & F1 & F2 & F3).
  assert (OTH : forall its, flashes_of (filter (fun i => match i with IOther _ => false | _ => true end) its) = flashes_of its /\
    groups_of (filter (fun i => match i with IOther _ => false | _ => true end) its) = groups_of its /\
    events_of (filter (fun i => match i with IOther _ => false | _ => true end) its) = events_of its).
  { induction its as [|[] its (I1 & I2 & I3)]; [repeat split|..]; unfold flashes_of, groups_of, events_of in *; cbn [filter flat_map app]; rewrite ?I1, ?I2, ?I3; auto. }
  destruct (OTH (map fst body ++ [it])) as (O1 & O2 & O3). rewrite EI in O1, O2, O3. destruct (listing_lines L) as (L1 & L2 & L3).
  rewrite <- O1, L1 in F1. rewrite <- O2, L2 in F2. rewrite <- O3, L3 in F3. clear O1 O2 O3 OTH EI L1 L2 L3.
  assert (FI : map f_id fs = map (fun p => zvalue (lf_id (fst p))) L).
  { rewrite <- (map_map fst (fun l => zvalue (lf_id l))). eapply zids; [|exact F1]. intros a b (K & _). exact K. }
  assert (GI : map g_id gs = map (fun p => zvalue (lg_id (fst p))) (all_groups L)).
  { rewrite <- (map_map fst (fun l => zvalue (lg_id l))). eapply zids; [|exact F2]. intros a b (K & _). exact K. }
  assert (GP : map g_parent gs = map (fun p => zvalue (lg_parent (fst p))) (all_groups L)).
  { rewrite <- (map_map fst (fun l => zvalue (lg_parent l))). eapply zids; [|exact F2]. intros a b K. unfold group_is in K. tauto. }
  assert (VI' : map e_id es = map (fun e => zvalue (le_id e)) (all_events L)).
  { eapply zids; [|exact F3]. intros a b (K & _). exact K. }
  assert (VP : map e_parent es = map (fun e => zvalue (le_parent e)) (all_events L)).
  { eapply zids; [|exact F3]. intros a b K. unfold event_is in K. tauto. }
  set (tables := [rows (map f_id fs) (map f_id fs); rows (map g_id gs) (map g_parent gs); rows (map e_id es) (map e_parent es)]).
  exists (made fs gs es), tables. eexists.
  split; [unfold convert; rewrite E; cbn [bind fst snd]; apply made_ok|]. split; [apply tables_made|]. split; [reflexivity|].
  assert (R0 : map rid (rows (map f_id fs) (map f_id fs)) = map f_id fs) by apply rows_rid.
  assert (R1 : map rid (rows (map g_id gs) (map g_parent gs)) = map g_id gs) by apply rows_rid.
  assert (R2 : map rid (rows (map e_id es) (map e_parent es)) = map e_id es) by apply rows_rid.
  assert (P1 : map rpid (rows (map g_id gs) (map g_parent gs)) = map g_parent gs) by (apply rows_rpid; rewrite !map_length; reflexivity).
  assert (P2 : map rpid (rows (map e_id es) (map e_parent es)) = map e_parent es) by (apply rows_rpid; rewrite !map_length; reflexivity).
  assert (CON : consistent tables).
  { split.
    - intros [|[|[|j]]] T K; cbn in K; try (destruct j; discriminate K); injection K as <-; [rewrite R0, FI|rewrite R1, GI|rewrite R2, VI']; assumption.
    - intros [|[|[|j]]] A B KA KB s Hs; cbn in KA, KB; try (destruct j; discriminate KB); try discriminate KB; injection KA as <-; injection KB as <-.
      + assert (IN : In (rpid s) (map rid (rows (map f_id fs) (map f_id fs)))).
        { rewrite R0, FI. apply (in_map rpid) in Hs. rewrite P1, GP in Hs. apply in_map_iff in Hs. destruct Hs as (p & <- & Hp).
          unfold all_groups in Hp. apply in_flat_map in Hp. destruct Hp as ([f q] & Hf & Hp). cbn [snd] in Hp. rewrite (PG f q Hf p Hp).
          apply in_map_iff. exists (f, q). auto. }
        apply in_map_iff in IN. destruct IN as (r & Er & Hr). exists r. auto.
      + assert (IN : In (rpid s) (map rid (rows (map g_id gs) (map g_parent gs)))).
        { rewrite R1, GI. apply (in_map rpid) in Hs. rewrite P2, VP in Hs. apply in_map_iff in Hs. destruct Hs as (e & <- & He).
          unfold all_events in He. apply in_flat_map in He. destruct He as ([g q] & Hg & He). cbn [snd] in He. rewrite (PE g q Hg e He).
          apply in_map_iff. exists (g, q). auto. }
        apply in_map_iff in IN. destruct IN as (r & Er & Hr). exists r. auto. }
  split; [exact CON|].
  assert (NG : all_groups L <> []) by (unfold all_events in NE; destruct (all_groups L); [exfalso; apply NE; reflexivity|discriminate]).
  assert (NF : L <> []) by (unfold all_groups in NG; destruct L; [exfalso; apply NG; reflexivity|discriminate]).
  assert (NT : forall is ps, is <> [] -> rows is ps <> []) by (intros is ps K K'; apply K; rewrite <- (rows_rid is ps), K'; reflexivity).
  assert (T1 : rows (map g_id gs) (map g_parent gs) <> []) by (apply NT; rewrite GI; destruct (all_groups L); [congruence|discriminate]).
  assert (T2 : rows (map e_id es) (map e_parent es) <> []) by (apply NT; rewrite VI'; destruct (all_events L); [congruence|discriminate]).
  assert (NDE : NoDup entity_ids) by (repeat (constructor; [intros K; cbn in K; repeat (destruct K as [K|K]; [discriminate K|]); exact K|]); constructor).
  assert (NDP : NoDup parent_ids) by (repeat (constructor; [intros K; cbn in K; repeat (destruct K as [K|K]; [discriminate K|]); exact K|]); constructor).
  split.
  - destruct (C02_replicate_on_consistent_tree tables entity_ids parent_ids _ 0 1 "flash_id" "event_parent_group_id" _ eq_refl NDE NDP eq_refl eq_refl ltac:(lia) eq_refl CON)
      as (l & El & Ll & Al).
    rewrite El. f_equal. apply ext_nth.
    + rewrite Ll. unfold rows. rewrite map_length, seq_length, VI', map_length.
      assert (Q : forall (f : lflash) (gs0 : list (lgroup * list levent)), List.length (flat_map (fun q => map (fun _ => zvalue (lf_id f)) (snd q)) gs0) = List.length (flat_map snd gs0)).
      { clear. intros f gs0. induction gs0 as [|q gs0 IH]; [reflexivity|]. cbn [flat_map]. rewrite !app_length, map_length, IH. reflexivity. }
      unfold all_events, all_groups. clear -Q. induction L as [|[f gs0] L IH]; [reflexivity|]. cbn [flat_map snd fst]. rewrite flat_map_app, !app_length, Q, <- IH. reflexivity.
    + intros k a Ka. assert (KL : (k < List.length (map e_id es))%nat).
      { assert (KK : (k < List.length l)%nat) by (apply nth_error_Some; congruence). rewrite Ll in KK. unfold rows in KK. rewrite map_length, seq_length in KK. exact KK. }
      assert (RK : nth_error (rows (map e_id es) (map e_parent es)) k = Some (mkRow (nth k (map e_id es) 0) (nth k (map e_parent es) 0) k)).
      { unfold rows. rewrite (map_nth_error _ k _ (d := k)); [reflexivity|]. clear -KL. set (n := List.length (map e_id es)) in *.
        rewrite (nth_error_nth' _ 0%nat) by (rewrite seq_length; exact KL). f_equal. rewrite seq_nth by exact KL. lia. }
      destruct (Al k _ RK) as (a' & T & A1 & A2 & _). assert (a' = a) by congruence. subst a'.
      assert (KL' : (k < List.length (all_events L))%nat) by (rewrite VI', map_length in KL; exact KL).
      destruct (nth_error (all_events L) k) as [e|] eqn:Ee; [|apply nth_error_None in Ee; lia].
      destruct (event_place L k e Ee) as (f & gs0 & g & es0 & I1 & I2 & I3 & I4). rewrite I4. f_equal.
      assert (PV : nth k (map e_parent es) 0 = zvalue (le_parent e)).
      { rewrite VP. apply nth_error_nth. exact (map_nth_error (fun e => zvalue (le_parent e)) k (all_events L) Ee). }
      assert (IG : In (g, es0) (all_groups L)) by (unfold all_groups; apply in_flat_map; exists (f, gs0); auto).
      rewrite (PE g es0 IG e I3) in PV.
      (* the row of the group *)
      destruct (In_nth_error _ _ IG) as (j & J).
      assert (JL : (j < List.length (map g_id gs))%nat) by (rewrite GI, map_length; apply nth_error_Some; congruence).
      assert (RG : In (mkRow (nth j (map g_id gs) 0) (nth j (map g_parent gs) 0) j) (rows (map g_id gs) (map g_parent gs))).
      { unfold rows. apply in_map_iff. exists j. split; [reflexivity|]. apply in_seq. lia. }
      assert (JI : nth j (map g_id gs) 0 = zvalue (lg_id g)) by (rewrite GI; apply nth_error_nth; rewrite (map_nth_error _ _ _ J); reflexivity).
      assert (JP : nth j (map g_parent gs) 0 = zvalue (lf_id f)).
      { rewrite GP. apply nth_error_nth. rewrite (map_nth_error _ _ _ J). cbn [fst]. f_equal. exact (PG f gs0 I1 (g, es0) I2). }
      symmetry. apply (C02_ancestor_is_unique tables 2 _ 0 _ _ (proj1 CON) A2).
      rewrite <- JP. apply (anc_up _ 2 _ 0 (mkRow (nth j (map g_id gs) 0) (nth j (map g_parent gs) 0) j) (rows (map g_id gs) (map g_parent gs)) (zvalue (lg_id g))).
      * rewrite <- PV. apply (anc_parent _ 1 (mkRow (nth k (map e_id es) 0) (nth k (map e_parent es) 0) k)).
      * reflexivity.
      * exact RG.
      * exact JI.
  - destruct (C01_count_children_exact tables entity_ids parent_ids _ 0 2 "flash_id" "event_id" eq_refl NDE eq_refl eq_refl ltac:(lia)) as (out & Eo & Lo & Co).
    { intros [|[|[|j]]] Hj; try lia; cbn; intros K; injection K as K; [exact (T1 K)|exact (T2 K)]. }
    rewrite Eo. f_equal. pose proof (Co 0%nat _ _ ltac:(lia) eq_refl eq_refl) as C0. pose proof (Co 1%nat _ _ ltac:(lia) eq_refl eq_refl) as C1.
    destruct out as [|o0 [|o1 [|o2 out]]]; cbn [List.length] in Lo; try lia. cbn [nth_error] in C0, C1. injection C0 as ->. injection C1 as ->.
    rewrite !row_counts, R0, R1, P1, P2, FI, GI, GP, VP. f_equal; [|f_equal].
    + unfold all_groups. exact (counts_nested (fun f => zvalue (lf_id f)) (fun p => zvalue (lg_parent (fst p))) L DF (fun f q Hf p Hp => PG f q Hf p Hp)).
    + unfold all_events. exact (counts_nested (fun g => zvalue (lg_id g)) (fun e => zvalue (le_parent e)) (all_groups L) DG PE).
Qed.
Print Assumptions C96_tree_of_listing.

(** The file is said to mimic the production format.  GLMDataset cannot open it: whatever the
    listing, every one of its steps that is not switched off raises. *)
Theorem C96_opened_as_production_refuted : forall body it ds calc times area energy, (forall p, In p body -> item_ok (fst p)) -> item_ok it ->
  convert (file_text body (item_text it)) = Ok ds ->
  (glmdataset_needs calc times area energy ds = Ok tt <-> calc = false /\ times = false /\ area = false /\ energy = false) /\
  glmdataset_needs true true true true ds = Err AttributeError.
Proof.
  intros body it ds calc times area energy H Hit C.
  destruct (C46_records_kept body it H Hit) as (fs & gs & es & E & _). unfold convert in C. rewrite E in C. cbn [bind fst snd] in C. rewrite made_ok in C. injection C as <-.
  unfold glmdataset_needs.
  change (getvar (made fs gs es) "lon_field_of_view") with (@Err var AttributeError).
  change (getvar (made fs gs es) "product_time_bounds") with (@Err var AttributeError).
  change (getvar (made fs gs es) "flash_area") with (Ok (mkV "flash_area" "number_of_flashes" (map (fun x => VF (f_area x)) fs) false)).
  change (getvar (made fs gs es) "event_energy") with (Ok (mkV "event_energy" "number_of_events" (map (fun x => VF (e_energy x)) es) false)).
  split; [|reflexivity]. destruct calc, times, area, energy; cbn [bind]; split; intros K; try discriminate K; try (destruct K as (K1 & K2 & K3 & K4); congruence); auto.
Qed.
Print Assumptions C96_opened_as_production_refuted.

(** A listing with a heading, two flashes, three groups and four events. *)
Definition ex_z (n : Z) : zlit := mkZ false [n].
Definition ex_d (n : Z) : dlit := mkD true [n; 4] [6] None.
Definition ex_flash (i : Z) : lflash := mkLF (ex_z i) (ex_d 1) (ex_d 2) (ex_d 3) (ex_d 4) (ex_d 5) (ex_d 6) (ex_z 1).
Definition ex_group (i p : Z) : lgroup := mkLG (ex_z i) (ex_z 0) (ex_d 1) (ex_d 2) (ex_d 3) (ex_d 4) (ex_d 5) (ex_d 6) (ex_z p) (ex_z 1).
Definition ex_event (i p : Z) : levent := mkLE (ex_z i) (ex_z 0) (ex_d 1) (ex_z 7) (ex_z 8) (ex_d 3) (ex_d 4) (ex_d 5) (ex_z p).
Definition ex_listing : nested :=
  [(ex_flash 7, [(ex_group 5 7, [ex_event 0 5; ex_event 2 5]); (ex_group 3 7, [ex_event 9 3])]); (ex_flash 2, [(ex_group 0 2, [ex_event 4 0])])].
Definition ex_body : list (item * bool) := (IOther (lit "heading"), true) :: map (fun i => (i, false)) (removelast (items_of ex_listing)).
Definition ex_last : item := IEvent (ex_event 4 0).
Ltac lits ZO DO := first [apply ZO; reflexivity | apply DO; reflexivity | split; [lits ZO DO | lits ZO DO]].
Example C96_hypotheses : (forall p, In p ex_body -> item_ok (fst p)) /\ item_ok ex_last /\
  filter (fun i => match i with IOther _ => false | _ => true end) (map fst ex_body ++ [ex_last]) = items_of ex_listing /\
  parents_right ex_listing /\ ids_distinct ex_listing /\ all_events ex_listing <> [] /\
  flat_map (fun p => flat_map (fun q => map (fun _ => zvalue (lf_id (fst p))) (snd q)) (snd p)) ex_listing = [7; 7; 7; 2].
Proof.
  assert (AD : forall l, forallb (fun d => (0 <=? d) && (d <? 10)) l = true -> all_digits l).
  { intros l H d Hd. rewrite forallb_forall in H. specialize (H d Hd). apply andb_true_iff in H. destruct H as [H1 H2]. apply Z.leb_le in H1. apply Z.ltb_lt in H2. lia. }
  assert (ZO : forall n, (0 <=? n) && (n <? 10) = true -> zlit_ok (ex_z n)) by (intros n H; split; [apply AD; cbn; rewrite H; reflexivity|discriminate]).
  assert (DO : forall n, (0 <=? n) && (n <? 10) = true -> dlit_ok (ex_d n)) by (intros n H; split; [apply AD; cbn; rewrite H; reflexivity|split; [discriminate|split; [apply AD; reflexivity|exact I]]]).
  split; [|split; [|split; [reflexivity|split; [|split; [|split; [discriminate|reflexivity]]]]]].
  - intros p H. cbn in H. repeat (destruct H as [<-|H]; [|]); [..|destruct H]; cbn [fst item_ok]; try (unfold lflash_ok, lgroup_ok, levent_ok; cbn; lits ZO DO).
    split; [|split; [|split; [|split]]]; try (intros K; cbn in K; repeat (destruct K as [K|K]; [discriminate K|]); exact K); intros [t K]; discriminate K.
  - unfold ex_last, item_ok, levent_ok. cbn. lits ZO DO.
  - split.
    + intros f gs H p Hp. cbn in H. repeat (destruct H as [H|H]; [injection H as <- <-; cbn in Hp; repeat (destruct Hp as [<-|Hp]; [reflexivity|]); destruct Hp|]). destruct H.
    + intros g es H e He. cbn in H. repeat (destruct H as [H|H]; [injection H as <- <-; cbn in He; repeat (destruct He as [<-|He]; [reflexivity|]); destruct He|]). destruct H.
  - repeat split; cbn; repeat (constructor; [intros K; cbn in K; repeat (destruct K as [K|K]; [discriminate K|]); exact K|]); constructor.
Qed.
