(** C79-C80: events, groups and flashes split by a mesh one by one, and their energy. *)
From Coq Require Import List ZArith QArith Qabs Bool String Lia Lqa Sorted.
From Verif Require Import Base BaseProofs Traversal TraversalSpec TraversalProofs PropTraversal Glm GlmSpec GlmProofs GlmProofs3 Lut LutSpec Accum Poly PolySpec PolyProofs BBox BBoxSpec BBoxProofs
  PropBBox Slice SliceSpec SliceProofs PropSlice Points PointsSpec PointsProofs Footprint FootprintSpec FootprintProofs.
Import ListNotations.
Open Scope Z_scope.

Local Notation tbl := (table obs).
Local Notation flash_of := (fun e : row obs => o_flash (rdat e)).

Section C79.
Variable clip : poly -> poly -> list poly.
Variable tree : Q * Q -> list (Z * Z).
Variable join : list poly -> list poly.
Variable corner_table : Type.
Variable quad : corner_table -> Q -> fval -> fval -> poly.
Variable to_lonlat : Q * Q -> fval * fval.
Variable junk : nat -> shard.
(** The polygon of an event, inflated, where fixed_grid says it is. *)
Definition outline (lut : corner_table) (fixed_grid : bool) (inflate : Q) (e : row obs) : poly :=
  if fixed_grid then quad lut inflate (o_x (rdat e)) (o_y (rdat e)) else quad lut inflate (o_lon (rdat e)) (o_lat (rdat e)).

(** The parents are those of the unsplit mode (C67).  The children at the level of events
    are the pieces of the polygon of every event; at the level of groups and flashes they
    are the pieces of every part of the union of the inflated polygons of their events. *)
Theorem C79_split_points : forall ck base fixed_grid m lut tv Fg Gg Eg F G E,
  can_split clip tree join m (outline lut fixed_grid) tv Fg Gg Eg F G E ->
  exists b, split_chunk clip tree join corner_table quad to_lonlat junk tv ck base fixed_grid m (Some lut) [F; G; E] = Ok b /\
    Forall2 (parent_point (t_first ck) (t_last ck) base (fun f => o_area (rdat f))) F (snd (s_flash b)) /\
    Forall2 (parent_point (t_group ck) (t_group ck) base (fun g => o_area (rdat g))) G (snd (s_group b)) /\
    Forall2 (parent_point (t_event ck) (t_event ck) base (fun _ => Some 0%Q)) E (snd (s_event b)) /\
    shards_of clip tree to_lonlat fixed_grid m NoBox base (t_event ck) (map (fun e => (outline lut fixed_grid 1 e, e)) E) (fst (s_event b)) /\
    (exists parts, footprints join (@rpid obs) (outline lut fixed_grid (102 # 100)) G E parts /\
       shards_of clip tree to_lonlat fixed_grid m TrueBox base (t_group ck) parts (fst (s_group b))) /\
    (exists parts, footprints join flash_of (outline lut fixed_grid (102 # 100)) F E parts /\
       shards_of clip tree to_lonlat fixed_grid m TrueBox base (t_first ck) parts (fst (s_flash b))).
Proof.
  intros ck base fx m lut tv Fg Gg Eg F G E H. destruct H as [(M & N & MO) PR PJ PQ LC HT DG D (nF & nG & nE) (iF & iG & iE)].
  assert (UG : NoDup (map rid Fg) /\ NoDup (map rid Gg) /\ NoDup (map rid Eg)).
  { destruct DG as ((U & _) & _). split; [exact (U 0%nat _ eq_refl)|]. split; [exact (U 1%nat _ eq_refl)|exact (U 2%nat _ eq_refl)]. }
  destruct UG as (UF & UGg & UE).
  assert (UC : NoDup (map rid F) /\ NoDup (map rid G)).
  { destruct D as ((U & _) & _). split; [exact (U 0%nat _ eq_refl)|exact (U 1%nat _ eq_refl)]. }
  destruct UC as (UcF & UcG).
  assert (LK : (forall e, In e E -> exists g, In g G /\ rid g = rpid e) /\ (forall e, In e E -> exists f, In f F /\ rid f = o_flash (rdat e))).
  { destruct D as ((_ & O) & DE & _). pose proof (O 0%nat F G eq_refl eq_refl) as L1. split.
    - intros e He. destruct (DE e He) as (g & Hg & Eg' & _). exists g. auto.
    - intros e He. destruct (DE e He) as (g & Hg & _ & ->). apply L1. auto. }
  destruct LK as [LG LF].
  assert (nFg : Fg <> []) by (destruct F as [|f F]; [congruence|]; intros ->; apply (iF f); left; auto).
  assert (nGg : Gg <> []) by (destruct G as [|f G]; [congruence|]; intros ->; apply (iG f); left; auto).
  assert (nEg : Eg <> []) by (destruct E as [|f E]; [congruence|]; intros ->; apply (iE f); left; auto).
  assert (EP : forall infl, map (fun e => quad lut infl (fst (place fx e)) (snd (place fx e))) E = map (outline lut fx infl) E).
  { intros infl. apply map_ext. intros e. unfold place, outline. destruct fx; reflexivity. }
  assert (EI : map (outline lut fx 1) E = map fst (map (fun e => (outline lut fx 1 e, e)) E) /\ map rid E = map (fun it => rid (snd it)) (map (fun e => (outline lut fx 1 e, e)) E)).
  { rewrite !map_map. auto. }
  destruct EI as [EI1 EI2].
  destruct (C30_succeeds_without_box clip tree m M N (map (outline lut fx 1) E) MO PR) as (r1 & S1).
  { intros p Hp. apply in_map_iff in Hp. destruct Hp as (e & <- & He). auto. }
  { intros p Hp. apply in_map_iff in Hp. destruct Hp as (e & <- & He). auto. }
  rewrite EI1 in S1.
  destruct (split_level_ok clip tree to_lonlat fx m M N NoBox base (t_event ck) Fg Gg Eg tv 2 "event_id" Eg (map (fun e => (outline lut fx 1 e, e)) E) r1 MO PR HT nFg nGg nEg eq_refl eq_refl UE) as (ev & HE1 & HE2); auto.
  { intros it Hit. apply in_map_iff in Hit. destruct Hit as (e & <- & He). apply iE. auto. }
  rewrite <- EI1, <- EI2 in HE1.
  destruct (index_items join (@rpid obs) (outline lut fx (102 # 100)) G E UcG LG) as (gparts & GP & GI & GU1 & GU2 & GJ).
  destruct (C30_succeeds_with_boxes clip tree m M N (map fst gparts) MO PR) as (r2 & S2).
  { intros p Hp. apply in_map_iff in Hp. destruct Hp as (it & <- & Hit). apply (PJ _ _ (GJ it Hit)). }
  destruct (split_level_ok clip tree to_lonlat fx m M N TrueBox base (t_group ck) Fg Gg Eg tv 1 "group_id" Gg gparts r2 MO PR HT nFg nGg nEg eq_refl eq_refl UGg) as (gr & HG1 & HG2); auto.
  rewrite <- GU1, <- GU2 in HG1.
  destruct (index_items join flash_of (outline lut fx (102 # 100)) F E UcF LF) as (fparts & FP & FI & FU1 & FU2 & FJ).
  destruct (C30_succeeds_with_boxes clip tree m M N (map fst fparts) MO PR) as (r3 & S3).
  { intros p Hp. apply in_map_iff in Hp. destruct Hp as (it & <- & Hit). apply (PJ _ _ (FJ it Hit)). }
  destruct (split_level_ok clip tree to_lonlat fx m M N TrueBox base (t_first ck) Fg Gg Eg tv 0 "flash_id" Fg fparts r3 MO PR HT nFg nGg nEg eq_refl eq_refl UF) as (fl & HF1 & HF2); auto.
  rewrite <- FU1, <- FU2 in HF1.
  unfold split_chunk. cbn [bind]. rewrite !EP, HE1. cbn [bind]. rewrite HG1. cbn [bind]. rewrite HF1. cbn [bind]. eexists. split; [reflexivity|].
  cbn [s_flash s_group s_event].
  assert (LV : forall t0 t1 area n (T : tbl) sh, T <> [] -> level_of junk (fill_parents t0 t1 base area n T) sh = (sh, fill_parents t0 t1 base area n T)) by (intros t0 t1 area n [|? ?] sh HT'; [congruence|reflexivity]).
  rewrite !LV by auto. cbn [fst snd]. split; [apply fill_parents_ok|]. split; [apply fill_parents_ok|]. split; [apply fill_parents_ok|].
  split; [exact HE2|]. split; [exists gparts; auto|exists fparts; auto].
Qed.
(** corner_pickle=None, documented as the built-in table, is not accepted. *)
Theorem C79_default_table_refuted : forall ck base fixed_grid m tv F G E,
  split_chunk clip tree join corner_table quad to_lonlat junk tv ck base fixed_grid m None [F; G; E] = Err TypeError.
Proof. reflexivity. Qed.

(** ** C80 *)
(** The points of each event carry its energy times the part of its polygon that was cut,
    hence all of it when the cells cover the polygon. *)
Theorem C80_event_energy : forall ck base fixed_grid m lut tv Fg Gg Eg F G E b e v,
  can_split clip tree join m (outline lut fixed_grid) tv Fg Gg Eg F G E ->
  split_chunk clip tree join corner_table quad to_lonlat junk tv ck base fixed_grid m (Some lut) [F; G; E] = Ok b ->
  (forall e, In e E -> - 2 ^ 31 <= rid e < 2 ^ 31) -> In e E -> o_energy (rdat e) = Some v ->
  let p := outline lut fixed_grid 1 e in ~ (size p == 0)%Q ->
  numbers (powers_of (rid e) (fst (s_event b))) /\
  exists s, share_of clip tree m NoBox p s /\ (total (powers_of (rid e) (fst (s_event b))) == v * s)%Q.
Proof.
  intros ck base fx m lut tv Fg Gg Eg F G E b e v H EB HR He Hv p Hp.
  destruct (C79_split_points ck base fx m lut tv Fg Gg Eg F G E H) as (b' & EB' & _ & _ & _ & S & _). rewrite EB in EB'. injection EB' as <-.
  assert (UE : NoDup (map rid E)). { destruct (cs_chunk _ _ _ _ _ _ _ _ _ _ _ _ H) as ((U & _) & _). exact (U 2%nat _ eq_refl). }
  assert (ONE : filter (fun it => rid (snd it) =? rid e) (map (fun e => (outline lut fx 1 e, e)) E) = [(p, e)]).
  { clear - UE He p. induction E as [|a E IH]; [destruct He|]. cbn in UE. inversion UE as [|? ? NI UE']; subst. cbn [map filter snd]. destruct He as [->|He].
    - rewrite Z.eqb_refl. f_equal. apply filter_none. intros it Hit. apply in_map_iff in Hit. destruct Hit as (x & <- & Hx). apply Z.eqb_neq. cbn [snd]. intros K. apply NI. rewrite <- K. apply in_map. auto.
    - destruct (rid a =? rid e) eqn:EQ; [|apply IH; auto]. apply Z.eqb_eq in EQ. exfalso. apply NI. rewrite EQ. apply in_map. auto. }
  destruct (shards_energy clip tree to_lonlat fx m NoBox base _ _ _ e v S) as (shares & FS & NU & TO); auto.
  { intros it Hit. apply in_map_iff in Hit. destruct Hit as (x & <- & Hx). cbn [snd]. auto. }
  { intros it Hit K. assert (In it (filter (fun it => rid (snd it) =? rid e) (map (fun e => (outline lut fx 1 e, e)) E))) as I by (apply filter_In; split; [auto|apply Z.eqb_eq; auto]).
    rewrite ONE in I. destruct I as [<-|[]]. cbn [fst snd]. auto. }
  rewrite ONE in FS. cbn [map fst] in FS. inversion FS as [|? s ? l1 HS HN]; subst. inversion HN; subst. split; [exact NU|]. exists s. split; [exact HS|].
  rewrite TO. unfold qsum. cbn [fold_right]. ring.
Qed.

(** For a group or flash, the shares of all parts of its footprint are added: each part
    carries the energy of the whole. *)
Definition energy_of_parts (b : boxarg) m (parts : list poly) (r : row obs) (v : Q) (ks : list shard) : Prop :=
  numbers (powers_of (rid r) ks) /\
  exists shares, Forall2 (share_of clip tree m b) parts shares /\ (total (powers_of (rid r) ks) == v * qsum shares)%Q.
Lemma parts_energy : forall fx m base time key lut (T E : tbl) parts ks r v, NoDup (map rid T) ->
  footprints join key (outline lut fx (102 # 100)) T E parts -> shards_of clip tree to_lonlat fx m TrueBox base time parts ks ->
  (forall r, In r T -> - 2 ^ 31 <= rid r < 2 ^ 31) -> In r T -> (exists e, In e E /\ key e = rid r) -> o_energy (rdat r) = Some v ->
  (forall p, In p (join (polygons_of key (outline lut fx (102 # 100)) E (rid r))) -> ~ (size p == 0)%Q) ->
  energy_of_parts TrueBox m (join (polygons_of key (outline lut fx (102 # 100)) E (rid r))) r v ks.
Proof.
  intros fx m base time key lut T E parts ks r v ND FP S HR Hr HE Hv HS.
  assert (IP : forall it, In it parts -> In (snd it) T /\ In (fst it) (join (polygons_of key (outline lut fx (102 # 100)) E (rid (snd it))))).
  { destruct FP as (T' & _ & IT & ->). intros it Hit. apply in_flat_map in Hit. destruct Hit as (q & Hq & Hp). apply in_map_iff in Hp. destruct Hp as (p & <- & Hp). split; [apply IT; auto|auto]. }
  destruct (shards_energy clip tree to_lonlat fx m TrueBox base time parts ks r v S) as (shares & FS & NU & TO); auto.
  { intros it Hit. apply HR. apply IP. auto. }
  { intros it Hit K. destruct (IP it Hit) as [I1 I2]. assert (snd it = r) as E1 by (apply (NoDup_map_inj _ _ rid T); auto). split; [exact E1|]. rewrite E1 in I2. auto. }
  rewrite (footprint_parts _ _ _ _ _ _ _ ND FP Hr HE) in FS. split; [exact NU|]. exists shares. auto.
Qed.
Theorem C80_footprint_energy : forall ck base fixed_grid m lut tv Fg Gg Eg F G E b,
  can_split clip tree join m (outline lut fixed_grid) tv Fg Gg Eg F G E ->
  split_chunk clip tree join corner_table quad to_lonlat junk tv ck base fixed_grid m (Some lut) [F; G; E] = Ok b ->
  (forall g v, (forall g, In g G -> - 2 ^ 31 <= rid g < 2 ^ 31) -> In g G -> (exists e, In e E /\ rpid e = rid g) -> o_energy (rdat g) = Some v ->
     let parts := join (polygons_of (@rpid obs) (outline lut fixed_grid (102 # 100)) E (rid g)) in
     (forall p, In p parts -> ~ (size p == 0)%Q) -> energy_of_parts TrueBox m parts g v (fst (s_group b))) /\
  (forall f v, (forall f, In f F -> - 2 ^ 31 <= rid f < 2 ^ 31) -> In f F -> (exists e, In e E /\ o_flash (rdat e) = rid f) -> o_energy (rdat f) = Some v ->
     let parts := join (polygons_of flash_of (outline lut fixed_grid (102 # 100)) E (rid f)) in
     (forall p, In p parts -> ~ (size p == 0)%Q) -> energy_of_parts TrueBox m parts f v (fst (s_flash b))).
Proof.
  intros ck base fx m lut tv Fg Gg Eg F G E b H EB.
  destruct (C79_split_points ck base fx m lut tv Fg Gg Eg F G E H) as (b' & EB' & _ & _ & _ & _ & (gp & GP & SG) & (fp & FP & SF)). rewrite EB in EB'. injection EB' as <-.
  assert (UC : NoDup (map rid F) /\ NoDup (map rid G)).
  { destruct (cs_chunk _ _ _ _ _ _ _ _ _ _ _ _ H) as ((U & _) & _). split; [exact (U 0%nat _ eq_refl)|exact (U 1%nat _ eq_refl)]. }
  destruct UC as [UF UG]. split.
  - intros g v HR Hg HE Hv parts HS. apply (parts_energy fx m base (t_group ck) (@rpid obs) lut G E gp); auto.
  - intros f v HR Hf HE Hv parts HS. apply (parts_energy fx m base (t_first ck) flash_of lut F E fp); auto.
Qed.
(** When the cells cover each part, the points carry the energy once for every part. *)
Lemma covered_share : forall m b p s, ~ (size p == 0)%Q -> share_of clip tree m b p s ->
  (forall cells, looked_up tree m b p cells -> covered p (cut clip m p cells)) -> (s == 1)%Q.
Proof. intros m b p s Hp (cells & L & ->) C. pose proof (C cells L) as C'. unfold covered in C'. rewrite C'. field. exact Hp. Qed.
Lemma parts_counted : forall b m parts r v ks, energy_of_parts b m parts r v ks ->
  (forall p, In p parts -> ~ (size p == 0)%Q /\ forall cells, looked_up tree m b p cells -> covered p (cut clip m p cells)) ->
  (total (powers_of (rid r) ks) == inject_Z (Z.of_nat (List.length parts)) * v)%Q.
Proof.
  intros b m parts r v ks (_ & shares & FS & ->) C.
  assert (Q : (qsum shares == inject_Z (Z.of_nat (List.length parts)))%Q); [|rewrite Q; ring].
  induction FS as [|p s parts shares HS FS IH]; [reflexivity|]. unfold qsum in *. cbn [fold_right List.length]. rewrite IH by (intros; apply C; right; auto).
  destruct (C p (or_introl eq_refl)) as [C1 C2]. rewrite (covered_share m b p s C1 HS C2). rewrite Nat2Z.inj_succ. unfold Z.succ. rewrite inject_Z_plus. ring.
Qed.
(** The energy of a flash is kept if its footprint is one polygon... *)
Theorem C80_flash_energy_partial : forall ck base fixed_grid m lut tv Fg Gg Eg F G E b f v p,
  can_split clip tree join m (outline lut fixed_grid) tv Fg Gg Eg F G E ->
  split_chunk clip tree join corner_table quad to_lonlat junk tv ck base fixed_grid m (Some lut) [F; G; E] = Ok b ->
  (forall f, In f F -> - 2 ^ 31 <= rid f < 2 ^ 31) -> In f F -> (exists e, In e E /\ o_flash (rdat e) = rid f) -> o_energy (rdat f) = Some v ->
  join (polygons_of flash_of (outline lut fixed_grid (102 # 100)) E (rid f)) = [p] -> ~ (size p == 0)%Q ->
  (forall cells, looked_up tree m TrueBox p cells -> covered p (cut clip m p cells)) ->
  (total (powers_of (rid f) (fst (s_flash b))) == v)%Q.
Proof.
  intros ck base fx m lut tv Fg Gg Eg F G E b f v p H EB HR Hf HE Hv HJ Hp C.
  destruct (C80_footprint_energy ck base fx m lut tv Fg Gg Eg F G E b H EB) as [_ K]. specialize (K f v HR Hf HE Hv). cbv zeta in K. rewrite HJ in K.
  assert (K2 : energy_of_parts TrueBox m [p] f v (fst (s_flash b))) by (apply K; intros q [<-|[]]; exact Hp).
  rewrite (parts_counted _ _ _ _ _ _ K2); [cbn; ring|]. intros q [<-|[]]. auto.
Qed.
(** ...and is multiplied by the number of its parts otherwise. *)
Theorem C80_separate_parts_refuted : forall ck base fixed_grid m lut tv Fg Gg Eg F G E b f v,
  can_split clip tree join m (outline lut fixed_grid) tv Fg Gg Eg F G E ->
  split_chunk clip tree join corner_table quad to_lonlat junk tv ck base fixed_grid m (Some lut) [F; G; E] = Ok b ->
  (forall f, In f F -> - 2 ^ 31 <= rid f < 2 ^ 31) -> In f F -> (exists e, In e E /\ o_flash (rdat e) = rid f) -> o_energy (rdat f) = Some v ->
  let parts := join (polygons_of flash_of (outline lut fixed_grid (102 # 100)) E (rid f)) in
  (forall p, In p parts -> ~ (size p == 0)%Q /\ forall cells, looked_up tree m TrueBox p cells -> covered p (cut clip m p cells)) ->
  (total (powers_of (rid f) (fst (s_flash b))) == inject_Z (Z.of_nat (List.length parts)) * v)%Q.
Proof.
  intros ck base fx m lut tv Fg Gg Eg F G E b f v H EB HR Hf HE Hv parts C.
  destruct (C80_footprint_energy ck base fx m lut tv Fg Gg Eg F G E b H EB) as [_ K]. specialize (K f v HR Hf HE Hv).
  apply (parts_counted TrueBox m); [|exact C]. apply K. intros p Hp. apply (C p Hp).
Qed.
End C79.
Print Assumptions C79_split_points.
Print Assumptions C79_default_table_refuted.
Print Assumptions C80_event_energy.
Print Assumptions C80_footprint_energy.
Print Assumptions C80_flash_energy_partial.
Print Assumptions C80_separate_parts_refuted.

(** * Examples: a flash of two events far apart, on the mesh of C30. *)
Definition fE : tbl :=
  [mkRow 101 11 (mkObs (Some 1) (Some 1) (Some 3) None (Some 1) (Some 1) 1 0 0);
   mkRow 102 11 (mkObs (Some 4) (Some 5) (Some 5) None (Some 4) (Some 5) 1 0 0)]%Q.
Definition fG : tbl := [mkRow 11 1 (mkObs (Some 3) (Some 3) (Some 8) (Some 2) (Some 3) (Some 3) 0 2 0)]%Q.
Definition fF : tbl := [mkRow 1 0 (mkObs (Some 3) (Some 3) (Some 8) (Some 2) (Some 3) (Some 3) 0 1 2)]%Q.
Definition fquad (half : Q) (inflate : Q) (x y : fval) : poly :=
  match x, y with
  | Some x, Some y => let h := (half * inflate)%Q in [(x - h, y - h); (x + h, y - h); (x + h, y + h); (x - h, y + h)]%Q
  | _, _ => [(0, 0); (1, 0); (1, 1); (0, 1)]%Q
  end.
Definition fck : clock := mkClock (fun i => i * 1000000000) (fun _ => 2000000000) (fun _ => 1000000000) (fun _ => 3000000000).
Definition fmesh : mesh := regular_xy ex_xs ex_ys.
Definition fjunk : nat -> shard := fun _ => mkShard 0 0 None None None None None 0 0.
(** A union of polygons that do not meet: each is a part. *)
Definition fjoin : list poly -> list poly := filter (fun p => match p with [] => false | _ => true end).
Lemma f_derived : derived_ok fF fG fE.
Proof.
  split; [split|].
  - intros j T H. do 3 (destruct j as [|j]; [injection H as <-; cbn; repeat constructor; cbn; intuition lia|]). destruct j; discriminate.
  - intros j A B HA HB s Hs. destruct j as [|[|j]]; cbn in HA, HB.
    + injection HA as <-. injection HB as <-. destruct Hs as [<-|[]]. eexists. split; [left; reflexivity|reflexivity].
    + injection HA as <-. injection HB as <-. destruct Hs as [<-|[<-|[]]]; (eexists; split; [left; reflexivity|reflexivity]).
    + destruct j as [|[|j]]; discriminate HB.
  - split; [|split].
    + intros e [<-|[<-|[]]]; (eexists; split; [left; reflexivity|split; reflexivity]).
    + intros g [<-|[]]. reflexivity.
    + intros f [<-|[]]. split; reflexivity.
Qed.
Definition ftv : traversal obs := match trav_init [fF; fG; fE] entity_ids parent_ids with Ok tv => tv | Err _ => mkTrav [] [] [] end.
Example C79_hypotheses : can_split ex_clip ex_tree fjoin fmesh (outline Q fquad (1 # 2)%Q true) ftv fF fG fE fF fG fE.
Proof.
  destruct C30_hypotheses as [MO PR]. split.
  - exists 3%nat, 4%nat. exact MO.
  - exact PR.
  - intros ps p H ->. apply filter_In in H. destruct H as [_ H]. discriminate H.
  - intros i e [<-|[<-|[]]]; discriminate.
  - intros e [<-|[<-|[]]]; (exists [(0, 0); (0, 1); (0, 2); (1, 0); (1, 1); (1, 2)]%nat; split; [vm_compute; reflexivity|discriminate]).
  - vm_compute. reflexivity.
  - apply f_derived.
  - apply f_derived.
  - repeat split; discriminate.
  - repeat split; apply incl_refl.
Qed.
Definition fparts : list poly := fjoin (polygons_of flash_of (outline Q fquad (1 # 2)%Q true (102 # 100)) fE 1).
Definition fout : res sbatch := split_chunk ex_clip ex_tree fjoin Q fquad (fun p => (Some (fst p), Some (snd p))) fjunk ftv fck (Some 0) true fmesh (Some (1 # 2)%Q) [fF; fG; fE].
Example C80_hypotheses : forall p, In p fparts -> ~ (size p == 0)%Q /\
  forall cells, looked_up ex_tree fmesh TrueBox p cells -> covered p (cut ex_clip fmesh p cells).
Proof.
  assert (K : forall p, In p fparts -> quads_in_bbox fmesh (extent p) = Ok (map zpair [(0, 0); (0, 1); (0, 2); (1, 0); (1, 1); (1, 2)]%nat)) by (intros p [<-|[<-|[]]]; vm_compute; reflexivity).
  intros p Hp. split; [destruct Hp as [<-|[<-|[]]]; vm_compute; discriminate|]. intros cells L. unfold looked_up in L. rewrite (K p Hp) in L. injection L as L.
  assert (cells = [(0, 0); (0, 1); (0, 2); (1, 0); (1, 1); (1, 2)]%nat) as ->.
  { assert (I : forall a b, map zpair a = map zpair b -> a = b).
    { induction a as [|[u v] a IH]; intros [|[w x] b] E; try discriminate E; [reflexivity|]. unfold zpair in E. cbn in E. injection E as E1 E2 E3. apply Nat2Z.inj in E1. apply Nat2Z.inj in E2. subst. f_equal. apply IH. exact E3. }
    apply I. cbn. rewrite <- L. reflexivity. }
  destruct Hp as [<-|[<-|[]]]; vm_compute; reflexivity.
Qed.
(** The energies of the events are kept, that of the flash is doubled. *)
Example C80_ex : exists b, fout = Ok b /\ map k_id (fst (s_event b)) = [101; 102; 102] /\ map k_id (fst (s_flash b)) = [1; 1; 1] /\
  (total (powers_of 102 (fst (s_event b))) == 5)%Q /\ (total (powers_of 1 (fst (s_flash b))) == 16)%Q /\ map o_energy (map rdat fF) = [Some 8%Q].
Proof. eexists. split; [vm_compute; reflexivity|]. do 4 (split; [vm_compute; reflexivity|]). reflexivity. Qed.
