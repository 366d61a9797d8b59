(** Proofs for C38 and the other history properties of the gyro filter. *)
From Coq Require Import Reals ZArith List Bool Arith Lia Lra.
From Verif Require Import Res Vec3 Mat MatInv Psd Spec LieGroup RobotState Imu Propagation ImuFilter SpecGyro GyroThms.
Import ListNotations.
Local Open Scope R_scope.

Lemma corr_imu_inv g m g' o : AngVelFilterCorrectIMU g m = Ok (g', o) -> exists x P, g' = gf_set_est g x P /\ o = mkImu (i_t m) (i_q m) (head3 x) (i_a m).
Proof. unfold AngVelFilterCorrectIMU. destruct (ang_vel_update _ _ _ _ _) as [[x P]|]; cbn [bind]; [|discriminate]. injection 1 as <- <-. eauto. Qed.
Lemma corr_enc_inv g m a g' o : AngVelFilterCorrectEncoder g m a = Ok (g', o) -> exists x P, g' = gf_set_est g x P /\ o = mkImu (av_t a) (i_q m) (head3 x) (i_a m).
Proof. unfold AngVelFilterCorrectEncoder. destruct (ang_vel_update _ _ _ _ _) as [[x P]|]; cbn [bind]; [|discriminate]. injection 1 as <- <-. eauto. Qed.

(** what propagation changes *)
Lemma gyro_prop_inv g g' : GyroPropagate g = Ok g' ->
  gf_imu g' = gf_imu g /\ gf_imus g' = gf_imus g /\ gf_av g' = gf_av g /\ gf_out g' = gf_out g /\ gf_cm g' = gf_cm g /\ gf_pm g' = gf_pm g /\ gf_init g' = gf_init g /\
  gf_thr g' = gf_thr g /\
  (exists tg, q_of (gf_gyro g) = tg ++ q_of (gf_gyro g') /\ (length tg <= 1)%nat /\ (tg = [] -> g' = g) /\ (forall m, tg = [m] -> gf_last g' = i_t m)) /\
  (gf_cm g <> ANG_VEL -> gf_latest g' = gf_latest g).
Proof.
  unfold GyroPropagate. destruct (gf_gyro g) as [q|] eqn:Eq; cbn [of_opt bind]; [|discriminate]. destruct q as [|m q].
  - injection 1 as <-. rewrite Eq. do 8 (split; [reflexivity|]). split; [|reflexivity]. exists []. cbn. repeat split; auto; discriminate.
  - cbn [gf_set_gyro gf_queues gf_prev gf_x gf_P gf_Q gf_set_prev gf_cm gf_latest]. destruct (cadd (vec6 _ _) _) as [x|]; cbn [bind]; [|discriminate].
    destruct (cadd _ _) as [P|]; cbn [bind]; [|discriminate]. injection 1 as <-. cbn. do 8 (split; [reflexivity|]). split.
    + exists [m]. cbn. split; [reflexivity|]. split; [lia|]. split; [discriminate|]. intros m' E. injection E as <-. reflexivity.
    + destruct (gf_cm g); congruence.
Qed.
Lemma walk_prop_inv g g' : RandomWalkPropagate g = Ok g' -> exists P, cadd (gf_P g) (gf_Q g) = Ok P /\ g' = gf_set_est g (gf_x g) P.
Proof. unfold RandomWalkPropagate. destruct (cadd _ _) as [P|]; cbn [bind]; [|discriminate]. injection 1 as <-. eauto. Qed.

(** the correction part of an iteration *)
Record cstep (g g' : gfilt) (ti : list imu) (ta : list avmeas) (new : list imu) : Prop := {
  cs_gyro : gf_gyro g' = gf_gyro g; cs_imu : q_of (gf_imu g) = ti ++ q_of (gf_imu g'); cs_av : q_of (gf_av g) = ta ++ q_of (gf_av g');
  cs_imus : gf_imus g' = gf_imus g; cs_n : (length ti + length ta <= 1)%nat; cs_out : gf_out g' = gf_out g ++ new; cs_new : (length new <= length ti + length ta)%nat;
  cs_in : forall m, In m new -> i_w m = head3 (gf_x g') /\
       ((exists x, ti = [x] /\ i_t m = i_t x /\ i_a m = i_a x /\ i_q m = i_q x) \/
        (exists a x, ta = [a] /\ i_t m = av_t a /\ gf_latest g' = Some x /\ i_a m = i_a x /\ i_q m = i_q x));
  cs_ord1 : forall x a, ti = [x] -> hd_error (q_of (gf_av g)) = Some a -> gf_cm g = SINGLE_IMU_PLUS_ANG_VEL -> i_t x <= av_t a;
  cs_ord2 : forall x a, ta = [a] -> hd_error (q_of (gf_imu g)) = Some x -> gf_cm g = SINGLE_IMU_PLUS_ANG_VEL -> av_t a < i_t x;
  cs_const : gf_cm g' = gf_cm g /\ gf_pm g' = gf_pm g /\ gf_init g' = gf_init g /\ gf_last g' = gf_last g /\ gf_thr g' = gf_thr g;
  cs_nulli : gf_imu g = None -> gf_imu g' = None; cs_nulla : gf_av g = None -> gf_av g' = None }.
Lemma cstep_id g : cstep g g [] [] [].
Proof. constructor; cbn; auto; try lia; try discriminate; try (intros; contradiction). rewrite app_nil_r. reflexivity. Qed.

Lemma single_cstep g g' : gf_cm g <> SINGLE_IMU_PLUS_ANG_VEL -> SingleImuCorrection g false = Ok g' -> exists ti ta new, cstep g g' ti ta new.
Proof.
  intros Hm. unfold SingleImuCorrection. destruct (gf_imu g) as [q|] eqn:Eq; cbn [of_opt bind]; [|discriminate].
  assert (forall h, Ok g = Ok h -> exists ti ta new, cstep g h ti ta new) as Hid by (intros h E; injection E as <-; exists [], [], []; apply cstep_id).
  destruct q as [|m q]; [apply Hid|]. destruct (Rle_dec _ _); [|apply Hid]. destruct (Rle_dec _ _); [|apply Hid]. cbn [maybe_clear bind].
  destruct (AngVelFilterCorrectIMU _ m) as [[g1 o]|] eqn:E; cbn [bind]; [|discriminate]. apply corr_imu_inv in E. destruct E as (x & P & -> & ->). injection 1 as <-.
  exists [m], [], [mkImu (i_t m) (i_q m) (head3 x) (i_a m)]. constructor; cbn; auto; try lia; try discriminate; try congruence.
  - rewrite Eq. reflexivity.
  - intros n [<-|[]]. cbn. split; [reflexivity|]. left. exists m. auto.
Qed.
Lemma av_cstep g g' : gf_cm g <> SINGLE_IMU_PLUS_ANG_VEL -> AngVelCorrection g false = Ok g' -> exists ti ta new, cstep g g' ti ta new.
Proof.
  intros Hm. unfold AngVelCorrection. destruct (gf_av g) as [q|] eqn:Eq; cbn [of_opt bind]; [|discriminate].
  destruct q as [|a q]; [injection 1 as <-; exists [], [], []; apply cstep_id|]. cbn [maybe_clear bind].
  destruct (gf_latest g) as [m|] eqn:El.
  - destruct (AngVelFilterCorrectEncoder _ m a) as [[g1 o]|] eqn:E; cbn [bind]; [|discriminate]. apply corr_enc_inv in E. destruct E as (x & P & -> & ->).
    cbn [gf_push fst snd gf_set_out gf_set_est gf_av gf_out]. rewrite Eq. cbn [of_opt bind pop]. injection 1 as <-.
    exists [], [a], [mkImu (av_t a) (i_q m) (head3 x) (i_a m)]. constructor; cbn; auto; try lia; try discriminate; try congruence.
    + rewrite Eq. reflexivity.
    + intros n [<-|[]]. cbn. split; [reflexivity|]. right. exists a, m. auto.
  - cbn [bind]. rewrite Eq. cbn [of_opt bind pop]. injection 1 as <-.
    exists [], [a], []. constructor; cbn; auto; try lia; try discriminate; try congruence; try (intros; contradiction).
    + rewrite Eq. reflexivity.
    + rewrite app_nil_r. reflexivity.
Qed.
Lemma both_imu g g' m : forall q, gf_imu g = Some (m :: q) -> (forall a, hd_error (q_of (gf_av g)) = Some a -> i_t m <= av_t a) ->
  (let g := gf_set_prev g (gf_last g) (gf_prev g) (Some m) in
    let* g := if in_time g (i_t m) then let* p := AngVelFilterCorrectIMU g m in Ok (gf_push p) else Ok g in
    let* q := of_opt (gf_imu g) NullDeref in
    let* q := pop q in
    Ok (gf_set_imu g q)) = Ok g' -> exists ti ta new, cstep g g' ti ta new.
Proof.
  intros q Eq Ho. cbn zeta. set (g1 := gf_set_prev g _ _ _). destruct (in_time g1 (i_t m)).
  - destruct (AngVelFilterCorrectIMU _ m) as [[g2 o]|] eqn:E; cbn [bind]; [|discriminate]. apply corr_imu_inv in E. destruct E as (x & P & -> & ->).
    cbn [gf_push fst snd gf_set_out gf_set_est gf_imu gf_out g1 gf_set_prev]. rewrite Eq. cbn [of_opt bind pop]. injection 1 as <-.
    exists [m], [], [mkImu (i_t m) (i_q m) (head3 x) (i_a m)]. constructor; cbn; auto; try lia; try discriminate; try congruence.
    + rewrite Eq. reflexivity.
    + intros n [<-|[]]. cbn. split; [reflexivity|]. left. exists m. auto.
    + intros y a E H _. injection E as <-. auto.
  - cbn [bind]. cbn [g1 gf_set_prev gf_imu]. rewrite Eq. cbn [of_opt bind pop]. injection 1 as <-.
    exists [m], [], []. constructor; cbn; auto; try lia; try discriminate; try congruence; try (intros; contradiction).
    + rewrite Eq. reflexivity.
    + rewrite app_nil_r. reflexivity.
    + intros y a E H _. injection E as <-. auto.
Qed.
Lemma both_av g g' a : forall q, gf_av g = Some (a :: q) -> (forall m, hd_error (q_of (gf_imu g)) = Some m -> av_t a < i_t m) ->
  (let* g :=
      match gf_latest g with
      | None => Ok g
      | Some m => if in_time g (av_t a) then let* p := AngVelFilterCorrectEncoder g m a in Ok (gf_push p) else Ok g
      end in
    let* q := of_opt (gf_av g) NullDeref in
    let* q := pop q in
    Ok (gf_set_av g q)) = Ok g' -> exists ti ta new, cstep g g' ti ta new.
Proof.
  intros q Eq Ho.
  assert ((let* g := Ok g in let* q := of_opt (gf_av g) NullDeref in let* q := pop q in Ok (gf_set_av g q)) = Ok g' -> exists ti ta new, cstep g g' ti ta new) as Hid.
  { cbn [bind]. rewrite Eq. cbn [of_opt bind pop]. injection 1 as <-. exists [], [a], [].
    constructor; cbn; auto; try lia; try discriminate; try congruence; try (intros; contradiction).
    - rewrite Eq. reflexivity.
    - rewrite app_nil_r. reflexivity.
    - intros y b E H _. injection E as <-. auto.
    }
  destruct (gf_latest g) as [m|] eqn:El; [|exact Hid]. destruct (in_time g (av_t a)); [|exact Hid].
  destruct (AngVelFilterCorrectEncoder _ m a) as [[g2 o]|] eqn:E; cbn [bind]; [|discriminate]. apply corr_enc_inv in E. destruct E as (x & P & -> & ->).
  cbn [gf_push fst snd gf_set_out gf_set_est gf_av gf_out]. rewrite Eq. cbn [of_opt bind pop]. injection 1 as <-.
  exists [], [a], [mkImu (av_t a) (i_q m) (head3 x) (i_a m)]. constructor; cbn; auto; try lia; try discriminate; try congruence.
  - rewrite Eq. reflexivity.
  - intros n [<-|[]]. cbn. split; [reflexivity|]. right. exists a, m. auto.
  - intros y b E H _. injection E as <-. auto.
Qed.
Lemma both_cstep g g' : SingleImuAngVelCorrection g false = Ok g' -> exists ti ta new, cstep g g' ti ta new.
Proof.
  unfold SingleImuAngVelCorrection. destruct (gf_imu g) as [qi|] eqn:Ei; cbn [of_opt bind]; [|discriminate].
  destruct (gf_av g) as [qa|] eqn:Ea; cbn [of_opt bind]; [|discriminate].
  destruct qi as [|m qi], qa as [|a qa]; cbn [hd_error]; cbn [maybe_clear bind].
  - injection 1 as <-. exists [], [], []. apply cstep_id.
  - apply both_av with (q := qa); auto. rewrite Ei. discriminate.
  - apply both_imu with (q := qi); auto. rewrite Ea. discriminate.
  - destruct (Rle_dec (i_t m) (av_t a)) as [Hl|Hl]; cbn [maybe_clear bind].
    + apply both_imu with (q := qi); auto. rewrite Ea. intros b E. injection E as <-. exact Hl.
    + apply both_av with (q := qa); auto. rewrite Ei. intros b E. injection E as <-. lra.
Qed.

Lemma run_split g g' : gf_init g = true -> gf_cm g <> MULTI_IMU -> ImuFilter_RunOnce g false = Ok g' ->
  exists g1 ti ta new, match gf_pm g with GYRO => GyroPropagate g | RANDOM_WALK => RandomWalkPropagate g end = Ok g1 /\ cstep g1 g' ti ta new.
Proof.
  intros Hi Hm. unfold ImuFilter_RunOnce. rewrite Hi. destruct (match gf_pm g with GYRO => _ | _ => _ end) as [g1|] eqn:E1; cbn [bind]; [|discriminate].
  assert (gf_cm g1 = gf_cm g) as Hc.
  { destruct (gf_pm g). apply gyro_prop_inv in E1; apply E1. apply walk_prop_inv in E1. destruct E1 as (P & _ & ->). reflexivity. }
  intros E. exists g1. assert (exists ti ta new, cstep g1 g' ti ta new) as (ti & ta & new & H); [|exists ti, ta, new; auto].
  destruct (gf_cm g1) eqn:Ec; try congruence.
  - apply both_cstep; auto.
  - apply single_cstep; auto; congruence.
  - apply av_cstep; auto; congruence.
  - injection E as <-. exists [], [], []. apply cstep_id.
Qed.
Lemma thm_turn g g' : gf_init g = true -> gf_cm g <> MULTI_IMU -> ImuFilter_RunOnce g false = Ok g' -> turn g g'.
Proof.
  intros Hi Hm E. destruct (run_split g g' Hi Hm E) as (g1 & ti & ta & new & E1 & C).
  assert (gf_imu g1 = gf_imu g /\ gf_imus g1 = gf_imus g /\ gf_av g1 = gf_av g /\ gf_out g1 = gf_out g /\ gf_cm g1 = gf_cm g /\
    exists tg, q_of (gf_gyro g) = tg ++ q_of (gf_gyro g1) /\ (length tg <= 1)%nat) as (A1 & A2 & A3 & A4 & A5 & tg & A6 & A7).
  { destruct (gf_pm g).
    - apply gyro_prop_inv in E1. destruct E1 as (B1 & B2 & B3 & B4 & B5 & _ & _ & _ & (tg & B6 & B7 & _) & _). repeat (split; [assumption|]). exists tg. auto.
    - apply walk_prop_inv in E1. destruct E1 as (P & _ & ->). repeat (split; [reflexivity|]). exists []. cbn. auto. }
  destruct C. exists tg, ti, ta, new. rewrite <- A1, <- A2, <- A3, <- A4, <- A5, cs_gyro0. auto 12.
Qed.

(** ** histories *)
Lemma emits_app u n u' n' : emits u n -> emits u' n' -> emits (u ++ u') (n ++ n').
Proof. induction 1; intros; cbn; auto; [apply em_skip|apply em_out]; auto. Qed.
Lemma one_used ti ta new : (length ti + length ta <= 1)%nat -> (length new <= length ti + length ta)%nat ->
  (forall m : imu, In m new -> (exists x : imu, ti = [x] /\ i_t m = i_t x) \/ (exists a : avmeas, ta = [a] /\ i_t m = av_t a)) ->
  exists u, u_imus u = ti /\ u_avs u = ta /\ emits u new.
Proof.
  intros A B C. destruct ti as [|x [|]]; destruct ta as [|a [|]]; cbn in A, B; try lia.
  - exists []. destruct new; cbn in B; [|lia]. repeat split. constructor.
  - exists [Datatypes.inr a]. destruct new as [|n [|]]; cbn in B; try lia; [repeat split; repeat constructor|]. split; [reflexivity|]. split; [reflexivity|]. apply em_out; [|constructor].
    destruct (C n (or_introl eq_refl)) as [(y & E & _)|(y & E & Hy)]; [discriminate|]. injection E as <-. exact Hy.
  - exists [Datatypes.inl x]. destruct new as [|n [|]]; cbn in B; try lia; [repeat split; repeat constructor|]. split; [reflexivity|]. split; [reflexivity|]. apply em_out; [|constructor].
    destruct (C n (or_introl eq_refl)) as [(y & E & Hy)|(y & E & _)]; [|discriminate]. injection E as <-. exact Hy.
Qed.
Lemma hstep_one g g' o : gf_init g = true -> gf_cm g <> MULTI_IMU -> no_gclear o = true -> no_gpop o = true -> gf_step g o = Ok g' -> hstep g g' [o].
Proof.
  intros Hi Hm Hc Hp. destruct o; cbn [gf_step]; try discriminate.
  - destruct (gf_gyro g) as [q|] eqn:E; cbn [of_opt bind]; [|discriminate]. injection 1 as <-. constructor; cbn; auto. exists [], [], []. cbn. rewrite ?E, !app_nil_r. repeat split; constructor.
  - destruct (gf_imu g) as [q|] eqn:E; cbn [of_opt bind]; [|discriminate]. injection 1 as <-. constructor; cbn; auto. exists [], [], []. cbn. rewrite ?E, !app_nil_r. repeat split; constructor.
  - injection 1 as <-. constructor; cbn; auto. exists [], [], []. cbn. rewrite !app_nil_r. repeat split; constructor.
  - destruct (gf_av g) as [q|] eqn:E; cbn [of_opt bind]; [|discriminate]. injection 1 as <-. constructor; cbn; auto. exists [], [], []. cbn. rewrite ?E, !app_nil_r. repeat split; constructor.
  - intros E. pose proof (thm_turn g g' Hi Hm E) as T. destruct (run_split g g' Hi Hm E) as (g1 & ? & ? & ? & E1 & C).
    assert (gf_cm g1 = gf_cm g /\ gf_init g1 = gf_init g) as [A1 A2].
    { destruct (gf_pm g). apply gyro_prop_inv in E1. tauto. apply walk_prop_inv in E1. destruct E1 as (P & _ & ->). auto. }
    destruct (cs_const _ _ _ _ _ C) as (B1 & _ & B2 & _). constructor; [congruence|congruence|].
    destruct T as (tg & ti & ta & new & T1 & T2 & T3 & T4 & _ & T5 & T6 & T7 & T8 & _).
    destruct (one_used ti ta new T5 T7) as (u & U1 & U2 & U3).
    { intros m I. destruct (T8 m I) as [_ [(y & Y1 & Y2 & _)|(a & y & Y1 & Y2 & _)]]; [left|right]; eauto. }
    exists tg, u, new. cbn. rewrite !app_nil_r, U1, U2. auto.
Qed.
Lemma thm_hist : forall os g g', gf_init g = true -> gf_cm g <> MULTI_IMU -> forallb no_gclear os = true -> forallb no_gpop os = true -> gf_run g os = Ok g' -> hstep g g' os.
Proof.
  induction os as [|o os IH]; intros g g' Hi Hm Hc Hp.
  - injection 1 as <-. constructor; auto. exists [], [], []. cbn. rewrite !app_nil_r. repeat split; constructor.
  - cbn [forallb] in Hc, Hp. apply andb_prop in Hc. apply andb_prop in Hp. destruct Hc as [Hc1 Hc2], Hp as [Hp1 Hp2].
    unfold gf_run. cbn [foldM]. destruct (gf_step g o) as [g1|] eqn:E; cbn [bind]; [|discriminate]. intros E2.
    destruct (hstep_one g g1 o Hi Hm Hc1 Hp1 E) as [A1 A2 (ug & u & n & A3 & A4 & A5 & A6 & A7)].
    destruct (IH g1 g' A1 ltac:(congruence) Hc2 Hp2 E2) as [B1 B2 (ug' & u' & n' & B3 & B4 & B5 & B6 & B7)].
    constructor; [auto|congruence|]. exists (ug ++ ug'), (u ++ u'), (n ++ n').
    assert (forall A (f : gop -> list A), flat_map f (o :: os) = flat_map f [o] ++ flat_map f os) as FM by (intros; cbn; rewrite app_nil_r; reflexivity).
    unfold g_gyros, g_imus, g_avs in *. rewrite !FM. rewrite !app_assoc, A3, A4, A5. unfold u_imus, u_avs in *. rewrite !flat_map_app. rewrite <- !app_assoc, B3, B4, B5. repeat (split; [reflexivity|]).
    split; [rewrite B6, A6, <- app_assoc; reflexivity|apply emits_app; auto].
Qed.
