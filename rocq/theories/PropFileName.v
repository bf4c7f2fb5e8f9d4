(** Properties C17, C18 and the naming half of C44: GLM file names. *)
From Coq Require Import List ZArith Bool Ascii String Lia.
From Verif Require Import Base BaseProofs FileName FileNameSpec FileNameProofs FileNameProofs2.
Import ListNotations.
Open Scope Z_scope.

(** * C17 *)
(** A name following the convention is parsed into its components. *)
Theorem C17_round_trip : forall env alg plat s e c,
  component env -> component alg -> component plat ->
  valid_from 1 s -> valid_from 1 e -> valid_from 1 c -> in_tenths s -> in_tenths e -> in_tenths c ->
  parse_filename (standard_name env alg plat s e c) = Ok (env, alg, plat, s, e, c).
Proof. intros. rewrite (name_spec 1) by auto. apply parse_name; auto. Qed.

(** Output names follow the same convention and parse back to the second. *)
Theorem C17_output_names_parse : forall start end_ created plat scene timeline name,
  valid_from 1000 start -> valid_from 1000 end_ -> valid_from 1000 created -> component plat ->
  dataset_name start end_ created plat scene timeline = Ok name ->
  exists alg, name = standard_name (lit "OR") alg plat (to_second start) (to_second end_) (to_second created) /\
    parse_filename name = Ok (lit "OR", alg, plat, to_second start, to_second end_, to_second created) /\
    In (scene, alg) [("FULL"%string, lit "GLM-L2-GLMF-M3"); ("CONUS"%string, lit "GLM-L2-GLMC-M3");
      ("MESO1"%string, lit "GLM-L2-GLMM1-M3"); ("MESO2"%string, lit "GLM-L2-GLMM2-M3");
      ("OTHER"%string, lit "GLM-L2-GLMM1-M3")].
Proof.
  intros start end_ created plat scene timeline name V1 V2 V3 Cp H.
  pose proof (parse_dataset_name _ _ _ _ _ _ _ V1 V2 V3 Cp H) as (s & Hs & Hp).
  apply dataset_name_convention in H. destruct H as (s' & Hs' & _ & En).
  rewrite Hs in Hs'. inversion Hs'; subst s'.
  exists (lit "GLM-L2-GLM" ++ lit s ++ lit "-M3"). split.
  - rewrite (name_spec 1); [exact En|..]; apply to_second_valid, valid_1000; auto.
  - split; [exact Hp|]. unfold scene_code in Hs. simpl.
    destruct (String.eqb scene "FULL") eqn:E1; [apply String.eqb_eq in E1; inversion Hs; subst; auto|].
    destruct (String.eqb scene "CONUS") eqn:E2; [apply String.eqb_eq in E2; inversion Hs; subst; auto|].
    destruct (String.eqb scene "MESO1") eqn:E3; [apply String.eqb_eq in E3; inversion Hs; subst; auto|].
    destruct (String.eqb scene "MESO2") eqn:E4; [apply String.eqb_eq in E4; inversion Hs; subst; auto|].
    destruct (String.eqb scene "OTHER") eqn:E5; [apply String.eqb_eq in E5; inversion Hs; subst; auto 6|discriminate].
Qed.
(** A name is produced for every known scene in the only known timeline. *)
Theorem C17_output_names_exist : forall start end_ created plat scene timeline,
  (exists name, dataset_name start end_ created plat scene timeline = Ok name) <->
  In scene ["FULL"; "CONUS"; "MESO1"; "MESO2"; "OTHER"]%string /\ timeline = "ABI Mode 3"%string.
Proof.
  intros start end_ created plat scene timeline. split.
  - intros [name H]. apply dataset_name_convention in H. destruct H as (s & Hs & Ht & _). split; auto.
    unfold scene_code in Hs. simpl.
    destruct (String.eqb scene "FULL") eqn:E1; [apply String.eqb_eq in E1; auto|].
    destruct (String.eqb scene "CONUS") eqn:E2; [apply String.eqb_eq in E2; auto|].
    destruct (String.eqb scene "MESO1") eqn:E3; [apply String.eqb_eq in E3; auto|].
    destruct (String.eqb scene "MESO2") eqn:E4; [apply String.eqb_eq in E4; auto|].
    destruct (String.eqb scene "OTHER") eqn:E5; [apply String.eqb_eq in E5; auto 6|discriminate].
  - intros [Hs ->]. unfold dataset_name. simpl in Hs.
    destruct Hs as [<-|[<-|[<-|[<-|[<-|[]]]]]]; eexists; reflexivity.
Qed.
(** A 15-character stamp the parser accepts has the fields of the convention in
    their ranges, and the instant returned is the one it denotes; day 366 of a
    365-day year is accepted as the first day of the next year. *)
Theorem C17_accepted_stamps : forall s d, List.length s = 15%nat -> parse_time s = Ok d ->
  exists c y j h m sec t,
    s = c :: decimal 4 y ++ decimal 3 j ++ decimal 2 h ++ decimal 2 m ++ decimal 2 sec ++ decimal 1 t /\
    1 <= y <= 9999 /\ 1 <= j <= 366 /\ 0 <= h <= 23 /\ 0 <= m <= 59 /\ 0 <= sec <= 59 /\ 0 <= t <= 9 /\
    instant d = instant (mkDT y j h m sec (t * 100000)).
Proof.
  intros s d HL H. destruct (parse_time_only s d HL H) as (c & y & j & h & m & sec & t & E & R1 & R2 & R3 & R4 & R5 & R6 & F1 & F2 & F3 & F4 & F5).
  exists c, y, j, h, m, sec, t. rewrite !decimal_pad. split.
  - rewrite E. rewrite <- !app_assoc. do 6 f_equal. cbn [pad]. rewrite app_nil_l. f_equal. f_equal. symmetry. apply Z.mod_small. lia.
  - do 6 (split; [assumption|]). unfold instant. cbn [dt_year dt_yday dt_hour dt_min dt_sec dt_us].
    rewrite F1, F2, F3, F4. destruct F5 as [(_ & -> & ->)|(-> & D & -> & ->)]; [reflexivity|].
    rewrite days_step, D. lia.
Qed.

Definition d_ex := mkDT 2018 183 4 30 0 600000.
Definition e_ex := mkDT 2018 183 4 30 20 600000.
Definition c_ex := mkDT 2018 183 4 30 48 500000.
Example C17_ex_name : standard_name (lit "OR") (lit "GLM-L2-LCFA") (lit "G16") d_ex e_ex c_ex
  = lit "OR_GLM-L2-LCFA_G16_s20181830430006_e20181830430206_c20181830430485.nc".
Proof. vm_compute. reflexivity. Qed.
Lemma valid_ex : valid_from 1000 d_ex /\ valid_from 1000 e_ex /\ valid_from 1000 c_ex
  /\ in_tenths d_ex /\ in_tenths e_ex /\ in_tenths c_ex.
Proof.
  split; [|split; [|split]]; [constructor; cbn; lia ..|].
  split; [exists 6; reflexivity|]. split; [exists 6; reflexivity|exists 5; reflexivity].
Qed.
Example C17_ex_hyp : component (lit "OR") /\ component (lit "GLM-L2-LCFA") /\ component (lit "G16").
Proof.
  split; [apply or_component|].
  split; (split; [simpl; intuition discriminate|apply no_dot_no_nc; simpl; intuition discriminate]).
Qed.
Example C17_ex_parse :
  parse_filename (lit "OR_GLM-L2-LCFA_G16_s20181830430006_e20181830430206_c20181830430485.nc")
  = Ok (lit "OR", lit "GLM-L2-LCFA", lit "G16", d_ex, e_ex, c_ex).
Proof. vm_compute. reflexivity. Qed.
Example C17_ex_output : dataset_name d_ex e_ex c_ex (lit "G16") "CONUS" "ABI Mode 3"
  = Ok (lit "OR_GLM-L2-GLMC-M3_G16_s20181830430000_e20181830430200_c20181830430480.nc").
Proof. vm_compute. reflexivity. Qed.
(** Shorter stamps are not all rejected (here the day is read with one digit). *)
Example C17_ex_short : parse_time (lit "s201818304300") = Ok (mkDT 2018 183 4 3 0 0).
Proof. vm_compute. reflexivity. Qed.
Example C17_ex_bad_day : parse_time (lit "s20183670430006") = Err ValueError.
Proof. vm_compute. reflexivity. Qed.

(** * C18 *)
Theorem C18_stamp_order : forall c d1 d2, valid_from 1 d1 -> valid_from 1 d2 -> in_tenths d1 -> in_tenths d2 ->
  str_compare (time_stamp c d1) (time_stamp c d2) = Z.compare (instant d1) (instant d2).
Proof.
  intros c d1 d2 V1 V2 T1 T2. rewrite !(stamp_spec 1) by auto.
  pose proof (stamp_compare c d1 d2 [] [] V1 V2 T1 T2) as H. rewrite !app_nil_r in H. rewrite H.
  cbn. destruct (instant d1 ?= instant d2); reflexivity.
Qed.
(** Names of the same kind sort by start, then end, then creation. *)
Theorem C18_name_order : forall env alg plat s1 e1 c1 s2 e2 c2,
  valid_from 1 s1 -> valid_from 1 e1 -> valid_from 1 c1 -> in_tenths s1 -> in_tenths e1 -> in_tenths c1 ->
  valid_from 1 s2 -> valid_from 1 e2 -> valid_from 1 c2 -> in_tenths s2 -> in_tenths e2 -> in_tenths c2 ->
  str_compare (standard_name env alg plat s1 e1 c1) (standard_name env alg plat s2 e2 c2)
  = match instant s1 ?= instant s2 with
    | Eq => match instant e1 ?= instant e2 with
            | Eq => instant c1 ?= instant c2
            | x => x
            end
    | x => x
    end.
Proof.
  intros. rewrite !(name_spec 1) by auto. unfold file_name.
  do 6 rewrite str_compare_app.
  rewrite stamp_compare by auto. destruct (instant s1 ?= instant s2); auto.
  rewrite str_compare_app, stamp_compare by auto. destruct (instant e1 ?= instant e2); auto.
  rewrite str_compare_app, stamp_compare by auto. destruct (instant c1 ?= instant c2); auto.
Qed.
(** The instants are told apart by [instant]: equal stamps are equal instants. *)
Theorem C18_stamp_injective : forall c d1 d2, valid_from 1 d1 -> valid_from 1 d2 -> in_tenths d1 -> in_tenths d2 ->
  time_stamp c d1 = time_stamp c d2 -> d1 = d2.
Proof.
  intros c d1 d2 V1 V2 T1 T2 E. rewrite !(stamp_spec 1) in E by auto.
  pose proof (parse_stamp c d1 V1 T1) as P1. rewrite E, (parse_stamp c d2 V2 T2) in P1. inversion P1. reflexivity.
Qed.
Example C18_ex : str_compare (time_stamp "s" d_ex) (time_stamp "s" e_ex) = Lt /\ instant d_ex < instant e_ex
  /\ str_compare (time_stamp "s" (mkDT 2019 1 0 0 0 0)) (time_stamp "s" (mkDT 2018 365 23 59 59 900000)) = Gt.
Proof. vm_compute. auto. Qed.

(** * C44, frames: files of frames whose starts are a second apart, or of
    different platforms, have different names *)
Theorem C44_frames_have_own_names_partial : forall s1 e1 c1 p1 sc1 s2 e2 c2 p2 sc2 tl1 tl2 n1 n2,
  valid_from 1000 s1 -> valid_from 1000 e1 -> valid_from 1000 c1 -> component p1 ->
  valid_from 1000 s2 -> valid_from 1000 e2 -> valid_from 1000 c2 -> component p2 ->
  dataset_name s1 e1 c1 p1 sc1 tl1 = Ok n1 -> dataset_name s2 e2 c2 p2 sc2 tl2 = Ok n2 ->
  1000000 <= Z.abs (instant s1 - instant s2) \/ 1000000 <= Z.abs (instant e1 - instant e2) \/ p1 <> p2 ->
  n1 <> n2.
Proof.
  intros s1 e1 c1 p1 sc1 s2 e2 c2 p2 sc2 tl1 tl2 n1 n2 V1 V2 V3 P1 V4 V5 V6 P2 H1 H2 D E. subst n2.
  apply parse_dataset_name in H1; auto. apply parse_dataset_name in H2; auto.
  destruct H1 as (x & _ & H1). destruct H2 as (y & _ & H2). rewrite H1 in H2.
  assert (to_second s1 = to_second s2 /\ to_second e1 = to_second e2 /\ p1 = p2) as (A & B & C)
    by (inversion H2; unfold to_second; split; [|split]; congruence).
  pose proof (instant_seconds _ _ (valid_1000 _ V1) (valid_1000 _ V4) A).
  pose proof (instant_seconds _ _ (valid_1000 _ V2) (valid_1000 _ V5) B). destruct D as [D|[D|D]]; [lia|lia|auto].
Qed.
Example C44_ex_hyp : 1000000 <= Z.abs (instant d_ex - instant e_ex) /\
  dataset_name d_ex e_ex c_ex (lit "G16") "CONUS" "ABI Mode 3" <>
  dataset_name e_ex e_ex c_ex (lit "G16") "CONUS" "ABI Mode 3".
Proof. split; [vm_compute; discriminate|]. vm_compute. discriminate. Qed.

Print Assumptions C17_round_trip.
Print Assumptions C17_output_names_parse.
Print Assumptions C17_output_names_exist.
Print Assumptions C17_accepted_stamps.
Print Assumptions C18_stamp_order.
Print Assumptions C18_name_order.
Print Assumptions C18_stamp_injective.
Print Assumptions C44_frames_have_own_names_partial.
