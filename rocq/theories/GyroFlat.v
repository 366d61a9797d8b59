(** Gyro filter: the meaning of flat_ground. *)
From Coq Require Import Reals ZArith List Bool Arith Lia Lra.
From Verif Require Import Res Vec3 Mat MatInv Psd Spec LieGroup RobotState Imu Propagation ImuFilter SpecGyro GyroThms GyroHist GyroEx GyroMore.
Import ListNotations.
Local Open Scope R_scope.

(** the components of yaw rate and yaw bias *)
Definition yaw (i : nat) : bool := (Nat.eqb i 2 || Nat.eqb i 5)%bool.
Definition ysplit (P : mat) : Prop := forall i j, (i < 6)%nat -> (j < 6)%nat -> yaw i <> yaw j -> ent P i j = 0.
Lemma ysplit_diag a b : ysplit (diag_cov a b).
Proof. intros i j Hi Hj N. unfold diag_cov. rewrite ent_mk by lia. destruct (Nat.eqb_spec i j); [subst; congruence|reflexivity]. Qed.
Lemma ysplit_plus A B : nr A = nr B -> nc A = nc B -> ysplit A -> ysplit B -> ysplit (A +M B).
Proof. intros H1 H2 HA HB i j Hi Hj N. rewrite ent_plus by auto. rewrite HA, HB by auto. ring. Qed.
(** an observation matrix of yaw components only *)
Definition yobs (H : mat) : Prop := forall k j, (k < 3)%nat -> (j < 6)%nat -> yaw j = false -> ent H k j = 0.
Lemma yobs_imu : yobs (H_imu false).
Proof. intros k j Hk Hj Y. unfold H_imu. rewrite ent_mk by lia. unfold yaw in Y. rewrite Y, andb_false_r. reflexivity. Qed.
Lemma yobs_enc : yobs (H_enc false).
Proof. intros k j Hk Hj Y. unfold H_enc. rewrite ent_mk by lia. unfold yaw in Y. apply orb_false_iff in Y. destruct Y as [Y _]. rewrite Y, andb_false_r. reflexivity. Qed.

Lemma sum0 n f : (forall k, (k < n)%nat -> f k = 0) -> sum n f = 0.
Proof. intros H. rewrite (sum_ext n f (fun _ => 0)) by exact H. induction n; cbn; [reflexivity|]. rewrite IHn by (intros; apply H; lia). ring. Qed.
Lemma update_yaw x P H N y x' P' : nr x = 6%nat -> nc x = 1%nat -> nr P = 6%nat -> psd P -> nr H = 3%nat -> nc H = 6%nat -> pd N -> nr N = 3%nat -> ysplit P -> yobs H ->
  kalman_update x P H N y x' P' -> ysplit P' /\ forall i, (i < 6)%nat -> yaw i = false -> ent x' i 0 = ent x i 0.
Proof.
  intros X1 X2 P1 HP H1 H2 HN N1 YP YH (K & K1 & K2 & EK & -> & ->). rewrite X1 in K1. rewrite N1 in K2.
  pose proof (psd_sq _ HP) as P2. rewrite P1 in P2. symmetry in P2. pose proof (psd_sq _ (pd_psd _ HN)) as N2. rewrite N1 in N2. symmetry in N2.
  assert (pd (H *M P *M mT H +M N)) as HS by (apply (kalman_S_pd P H N 6 3); auto). destruct (pd_inv _ HS) as [Si ESi]. destruct (minv_some _ _ ESi) as (S0 & S1 & S2 & S3 & S4).
  set (Sm := H *M P *M mT H +M N) in *. assert (nr Sm = 3%nat) as SS by (unfold Sm; mdim). rewrite SS in *.
  assert (K = P *M mT H *M Si) as EK'. { rewrite <- EK, <- mmult_assoc, S3. symmetry. apply mmult_eye_r. auto. }
  assert (forall i k, (i < 6)%nat -> (k < 3)%nat -> yaw i = false -> ent (P *M mT H) i k = 0) as Z1.
  { intros i k Hi Hk Y. rewrite ent_mult. apply sum0. intros j Hj. rewrite P2 in Hj. rewrite ent_T. destruct (yaw j) eqn:Yj; [rewrite YP by (auto; congruence)|rewrite YH by auto]; ring. }
  assert (forall i k, (i < 6)%nat -> (k < 3)%nat -> yaw i = false -> ent K i k = 0) as ZK.
  { intros i k Hi Hk Y. rewrite EK', ent_mult. apply sum0. intros j Hj. rewrite Z1; auto; [ring|]. rewrite nc_mult, nc_T, H1 in Hj. exact Hj. }
  set (J := meye 6 -M K *M H). assert (nr J = 6%nat) as J1 by (unfold J; mdim). assert (nc J = 6%nat) as J2 by (unfold J; mdim).
  assert (forall i j, (i < 6)%nat -> (j < 6)%nat -> ent J i j = (if Nat.eqb i j then 1 else 0) - sum 3 (fun k => ent K i k * ent H k j)) as EJ.
  { intros i j Hi Hj. unfold J. rewrite ent_minus by mdim. rewrite ent_eye by lia. rewrite ent_mult, K2. reflexivity. }
  assert (forall i j, (i < 6)%nat -> (j < 6)%nat -> yaw i <> yaw j -> ent J i j = 0) as YJ.
  { intros i j Hi Hj N'. rewrite EJ by auto. rewrite sum0; [destruct (Nat.eqb_spec i j); [subst; congruence|ring]|]. intros k Hk. destruct (yaw j) eqn:Yj; [rewrite ZK by (auto; destruct (yaw i); congruence)|rewrite YH by auto]; ring. }
  split.
  - intros i j Hi Hj N'. rewrite ent_plus by mdim. rewrite !ent_mult.
    rewrite sum0; [rewrite sum0; [ring|]|].
    + intros k Hk. rewrite nc_mult, N2 in Hk. rewrite ent_T. destruct (yaw i) eqn:Yi.
      * rewrite (ZK j k) by (auto; destruct (yaw j); congruence). ring.
      * rewrite ent_mult, sum0; [ring|]. intros l Hl. rewrite K2 in Hl. rewrite ZK by auto. ring.
    + intros k Hk. rewrite nc_mult, P2 in Hk. rewrite ent_T. assert (yaw j <> yaw k \/ yaw i <> yaw k) as [Y|Y] by (destruct (yaw i), (yaw j), (yaw k); auto; congruence).
      * rewrite (YJ j k) by auto. ring.
      * rewrite ent_mult, sum0; [ring|]. intros l Hl. rewrite J2 in Hl. assert (yaw i <> yaw l \/ yaw l <> yaw k) as [Y'|Y'] by (destruct (yaw i), (yaw l), (yaw k); auto; congruence); [rewrite YJ by auto|rewrite YP by auto]; ring.
  - intros i Hi Y. rewrite ent_plus by mdim. rewrite ent_mult, sum0; [ring|]. intros k Hk. rewrite K2 in Hk. rewrite ZK by auto. ring.
Qed.

(** ** invariants of estimate, covariance and results along histories *)
Section Hist.
Variable Inv : gfilt -> Prop.
Hypothesis I_same : forall g g', Inv g -> gf_const g' = gf_const g -> gf_x g' = gf_x g -> gf_P g' = gf_P g -> gf_pm g' = gf_pm g -> incl (gf_out g') (gf_out g) -> Inv g'.
Hypothesis I_gyro : forall g g', Inv g -> gf_pm g = GYRO -> GyroPropagate g = Ok g' -> Inv g'.
Hypothesis I_walk : forall g g', Inv g -> gf_pm g = RANDOM_WALK -> RandomWalkPropagate g = Ok g' -> Inv g'.
Hypothesis I_imu : forall g m p, Inv g -> AngVelFilterCorrectIMU g m = Ok p -> Inv (gf_push p).
Hypothesis I_enc : forall g m a p, Inv g -> AngVelFilterCorrectEncoder g m a = Ok p -> Inv (gf_push p).
Hypothesis I_cal : forall g avg, Inv g -> Inv (gf_set_est g (vec6 vzero avg) (gf_P g)).
Definition okk (r : res gfilt) : Prop := match r with Ok g => Inv g | Fail _ => True end.
Lemma okk_same g g' : Inv g -> gf_const g' = gf_const g -> gf_x g' = gf_x g -> gf_P g' = gf_P g -> gf_pm g' = gf_pm g -> incl (gf_out g') (gf_out g) -> okk (Ok g').
Proof. intros. eapply I_same; eauto. Qed.
Lemma okk_bind r f : okk r -> (forall g, Inv g -> okk (f g)) -> okk (bind r f).
Proof. destruct r; cbn; auto. Qed.
Lemma okk_opt {A} (o : option A) f : (forall x, o = Some x -> okk (f x)) -> okk (let* x := of_opt o NullDeref in f x).
Proof. destruct o; cbn; auto. Qed.
Lemma okk_pop {A} (q : list A) f : (forall q', okk (f q')) -> okk (let* q' := pop q in f q').
Proof. destruct q; cbn; auto. Qed.
Ltac sm I := eapply okk_same; [exact I|reflexivity|reflexivity|reflexivity|reflexivity|apply incl_refl].
Lemma okk_clear g : Inv g -> okk (ImuFilter_clear g).
Proof. intros I. unfold ImuFilter_clear. apply okk_opt. intros _ _. apply okk_opt. intros _ _. eapply okk_same; [exact I|reflexivity|reflexivity|reflexivity|reflexivity|intros x []]. Qed.
Lemma okk_maybe b g : Inv g -> okk (maybe_clear b g).
Proof. destruct b; [apply okk_clear|]. auto. Qed.
Lemma okk_cimu g m : Inv g -> okk (let* p := AngVelFilterCorrectIMU g m in Ok (gf_push p)).
Proof. intros I. destruct (AngVelFilterCorrectIMU g m) as [p|] eqn:E; cbn; auto. eapply I_imu; eauto. Qed.
Lemma okk_cenc g m a : Inv g -> okk (let* p := AngVelFilterCorrectEncoder g m a in Ok (gf_push p)).
Proof. intros I. destruct (AngVelFilterCorrectEncoder g m a) as [p|] eqn:E; cbn; auto. eapply I_enc; eauto. Qed.
Lemma okk_single g clr : Inv g -> okk (SingleImuCorrection g clr).
Proof.
  intros I. unfold SingleImuCorrection. apply okk_opt. intros q Eq. destruct q as [|m q]; [apply okk_maybe; auto|].
  destruct (Rle_dec _ _); [|apply okk_maybe; auto]. destruct (Rle_dec _ _); [|apply okk_maybe; auto].
  assert (Inv (gf_set_imu g q)) as I' by sm I. apply okk_bind; [apply okk_maybe; auto|]. intros. apply okk_cimu; auto.
Qed.
Lemma okk_multi : forall todo g fused done, Inv g -> (forall f, fused = Some f -> In f (gf_out g)) -> okk (multi_loop g fused done todo).
Proof.
  induction todo as [|q qs IH]; intros g fused done I F; cbn [multi_loop]; [sm I|]. destruct q as [|m q]; [apply IH; auto|].
  destruct (in_time g (i_t m)).
  - destruct (AngVelFilterCorrectIMU g m) as [[g1 o]|] eqn:E; cbn [bind]; [|exact Logic.I]. pose proof (I_imu g m _ I E) as I1. cbn [gf_push fst snd] in I1. apply IH; [exact I1|].
    intros f Ef. injection Ef as <-. cbn. apply in_or_app. right. left. reflexivity.
  - cbn [bind]. destruct fused as [f|]; [|apply IH; auto]. apply IH; [|intros f' Ef; injection Ef as <-; cbn; apply in_or_app; left; auto].
    eapply I_same; [exact I|reflexivity|reflexivity|reflexivity|reflexivity|]. cbn. apply incl_app; [apply incl_refl|]. intros x [<-|[]]. auto.
Qed.
Lemma okk_both g clr : Inv g -> okk (SingleImuAngVelCorrection g clr).
Proof.
  intros I. unfold SingleImuAngVelCorrection. apply okk_opt. intros qi Ei. apply okk_opt. intros qa Ea.
  destruct (match hd_error qi with Some _ => _ | None => _ end) as [im av]. apply okk_bind; [apply okk_maybe; auto|]. intros g1 I1.
  destruct im as [m|]; [|destruct av as [a|]].
  - set (g2 := gf_set_prev g1 _ _ _). assert (Inv g2) as I2 by sm I1.
    apply okk_bind; [destruct (in_time g2 (i_t m)); [apply okk_cimu; auto|exact I2]|].
    intros g3 I3. apply okk_opt. intros q Eq. apply okk_pop. intros q'. sm I3.
  - apply okk_bind; [destruct (gf_latest g1); [destruct (in_time g1 (av_t a)); [apply okk_cenc; auto|]|]; exact I1|].
    intros g3 I3. apply okk_opt. intros q Eq. apply okk_pop. intros q'. sm I3.
  - exact I1.
Qed.
Lemma okk_av g clr : Inv g -> okk (AngVelCorrection g clr).
Proof.
  intros I. unfold AngVelCorrection. apply okk_opt. intros q Eq. destruct q as [|a q]; [apply okk_maybe; auto|].
  apply okk_bind; [apply okk_maybe; auto|]. intros g1 I1.
  apply okk_bind; [destruct (gf_latest g1); [apply okk_cenc; auto|exact I1]|].
  intros g3 I3. apply okk_opt. intros q' Eq'. apply okk_pop. intros q2. sm I3.
Qed.
Lemma okk_init g : Inv g -> okk (InitializeFilter g).
Proof.
  intros I. unfold InitializeFilter. destruct (gf_size g) as [size|]; cbn [of_opt bind]; [|exact Logic.I].
  destruct (_ && _)%bool.
  - apply okk_opt. intros q Eq. destruct q as [|m q]; [exact I|]. cbn [gf_set_vec gf_set_imu gf_queues gf_pm gf_gyro].
    destruct (gf_pm g) eqn:Ep; [|eapply okk_same; [exact I|reflexivity|reflexivity|reflexivity|cbn; congruence|apply incl_refl]]. apply okk_opt. intros q' Eq'. destruct q'; eapply okk_same; try exact I; try reflexivity; try (apply incl_refl); cbn; congruence.
  - destruct (gf_static g); [|sm I]. unfold average. destruct (gf_vec g) as [|v l]; [exact Logic.I|]. cbn [bind].
    match goal with |- context [gf_set_est g ?x ?y] => set (g1 := gf_set_est g x y) end. assert (Inv g1) as I1 by apply (I_cal g _ I). clearbody g1.
    apply okk_bind; [destruct (gf_pm g1) eqn:Ep; [apply okk_opt; intros; sm I1|exact I1]|]. intros g2 I2.
    apply okk_bind; [destruct (gf_cm g2); try (apply okk_opt; intros); try sm I2; exact I2|]. intros g3 I3.
    apply okk_bind; [destruct (gf_cm g3); try (apply okk_opt; intros); try sm I3; exact I3|]. intros g4 I4. sm I4.
Qed.
Lemma okk_run g clr : Inv g -> okk (ImuFilter_RunOnce g clr).
Proof.
  intros I. unfold ImuFilter_RunOnce. destruct (gf_init g).
  - apply okk_bind.
    + destruct (gf_pm g) eqn:Ep; [destruct (GyroPropagate g) eqn:E|destruct (RandomWalkPropagate g) eqn:E]; cbn; eauto.
    + intros g1 I1. destruct (gf_cm g1).
      * apply okk_both; auto.
      * apply okk_single; auto.
      * apply okk_bind; [apply okk_maybe; auto|]. intros. apply okk_multi; auto. discriminate.
      * apply okk_av; auto.
      * apply okk_maybe; auto.
  - apply okk_bind; [apply okk_maybe; auto|]. intros g1 I1. apply okk_init. sm I1.
Qed.
Lemma okk_step g o : Inv g -> okk (gf_step g o).
Proof.
  intros I. destruct o; cbn [gf_step]; try (apply okk_opt; intros; sm I); try (sm I); [apply okk_run; auto|apply okk_run; auto|apply okk_clear; auto|].
  eapply okk_same; [exact I|reflexivity|reflexivity|reflexivity|reflexivity|]. cbn. intros x Hx. destruct (gf_out g); [contradiction|right; auto].
Qed.
Lemma inv_hist : forall os g g', Inv g -> gf_run g os = Ok g' -> Inv g'.
Proof.
  induction os as [|o os IH]; intros g g' I; [injection 1 as <-; auto|]. rewrite gf_run_cons. pose proof (okk_step g o I) as S. destruct (gf_step g o); cbn [bind]; [|discriminate]. apply IH. exact S.
Qed.
End Hist.

Record yinv (g : gfilt) : Prop := { yi_g : gyro_inv g; yi_P : ysplit (gf_P g); yi_Q : ysplit (gf_Q g); yi_i : yobs (gf_Hi g); yi_e : yobs (gf_He g) }.
Lemma const_split g g' : gf_const g' = gf_const g -> gf_Q g' = gf_Q g /\ gf_Hi g' = gf_Hi g /\ gf_He g' = gf_He g.
Proof. unfold gf_const. intros E. injection E as ? ? ? ? ? _. auto. Qed.
Lemma yinv_same g g' : yinv g -> gf_const g' = gf_const g -> gf_x g' = gf_x g -> gf_P g' = gf_P g -> yinv g'.
Proof. intros [] C X P. destruct (const_split _ _ C) as (A1 & A2 & A3). constructor; rewrite ?A1, ?A2, ?A3, ?P; auto. eapply inv_same; eauto. Qed.
Lemma yinv_gyro g g' : yinv g -> GyroPropagate g = Ok g' -> yinv g'.
Proof.
  intros [] E. destruct (propagate_inv g yi_g0) as [A _]. destruct (A g' E) as [I C]. destruct (const_split _ _ C) as (A1 & A2 & A3). constructor; rewrite ?A1, ?A2, ?A3; auto.
  revert E. unfold GyroPropagate. destruct (gf_gyro g) as [q|]; cbn [of_opt bind]; [|discriminate]. destruct q as [|m q]; [injection 1 as <-; auto|].
  cbn [gf_set_prev gf_set_gyro gf_queues gf_x gf_P gf_Q gf_prev gf_cm gf_latest]. destruct (cadd (vec6 _ _) _); cbn [bind]; [|discriminate]. pose proof yi_g0 as []. pose proof (psd_sq _ gi_P). pose proof (psd_sq _ gi_Q).
  rewrite cadd_ok by congruence. cbn [bind]. injection 1 as <-. cbn. apply ysplit_plus; auto; congruence.
Qed.
Lemma yinv_walk g g' : yinv g -> RandomWalkPropagate g = Ok g' -> yinv g' /\ gf_x g' = gf_x g.
Proof.
  intros [] E. destruct (walk_inv g yi_g0) as (g1 & E1 & I & C). rewrite E in E1. injection E1 as <-. destruct (const_split _ _ C) as (A1 & A2 & A3). apply walk_prop_inv in E. destruct E as (P & EP & ->).
  split; [|reflexivity]. pose proof yi_g0 as []. pose proof (psd_sq _ gi_P). pose proof (psd_sq _ gi_Q). rewrite cadd_ok in EP by congruence. injection EP as <-.
  constructor; rewrite ?A1, ?A2, ?A3; auto. cbn. apply ysplit_plus; auto; congruence.
Qed.
Lemma rp_same x x' : (forall i, (i < 6)%nat -> yaw i = false -> ent x' i 0 = ent x i 0) -> roll_pitch_same x x'.
Proof. intros H. unfold roll_pitch_same, head3, tail3, getV3, vmk. cbn [v0 v1 Nat.add]. rewrite !H by (try lia; reflexivity). auto. Qed.
Lemma yinv_imu g m g' o : yinv g -> AngVelFilterCorrectIMU g m = Ok (g', o) -> yinv g' /\ roll_pitch_same (gf_x g) (gf_x g') /\ i_w o = head3 (gf_x g') /\ gf_pm g' = gf_pm g /\ gf_out g' = gf_out g.
Proof.
  intros [] E. destruct (correct_imu_ok g m yi_g0) as (x & P & E1 & I & _ & K). rewrite E in E1. injection E1 as -> ->. pose proof yi_g0 as []. apply update_yaw in K; auto. destruct K as [K1 K2].
  split; [constructor; auto|]. split; [apply rp_same; exact K2|]. auto.
Qed.
Lemma yinv_enc g m a g' o : yinv g -> AngVelFilterCorrectEncoder g m a = Ok (g', o) -> yinv g' /\ roll_pitch_same (gf_x g) (gf_x g') /\ i_w o = head3 (gf_x g') /\ gf_pm g' = gf_pm g /\ gf_out g' = gf_out g.
Proof.
  intros [] E. destruct (correct_enc_ok g m a yi_g0) as (x & P & E1 & I & _ & K). rewrite E in E1. injection E1 as -> ->. pose proof yi_g0 as []. apply update_yaw in K; auto. destruct K as [K1 K2].
  split; [constructor; auto|]. split; [apply rp_same; exact K2|]. auto.
Qed.
Lemma yinv_cal g avg : yinv g -> yinv (gf_set_est g (vec6 vzero avg) (gf_P g)).
Proof. intros []. constructor; auto. apply (inv_est g); auto; try apply yi_g0; apply vec6_dim. Qed.
Lemma yinv_start im av size c l : gcfg_ok c -> q_flat c <> Some true -> yinv (gf_setup (gf_make im av size c) l).
Proof.
  intros Hc Hf. assert (dflt (q_flat c) false = false) as F by (destruct (q_flat c) as [[]|]; cbn; congruence).
  assert (yinv (gf_make im av size c)) as Y0.
  { constructor; cbn; [apply make_inv; auto|apply ysplit_diag|apply ysplit_diag| |]; rewrite F; [apply yobs_imu|apply yobs_enc]. }
  clear F. revert Y0. generalize (gf_make im av size c) as g. unfold gf_setup. induction l as [|a l IH]; intros g Y; [exact Y|]. cbn [fold_left]. apply IH.
  destruct a; cbn [gf_add]; [| |]; [|unfold add_imu_correction; destruct (Nat.eqb _ _)|]; eapply yinv_same; try exact Y; reflexivity.
Qed.
Lemma thm_flat_false im av size c l os g : gcfg_ok c -> q_flat c <> Some true -> gf_run (gf_setup (gf_make im av size c) l) os = Ok g ->
  (forall m g' o, AngVelFilterCorrectIMU g m = Ok (g', o) -> roll_pitch_same (gf_x g) (gf_x g')) /\
  (forall m a g' o, AngVelFilterCorrectEncoder g m a = Ok (g', o) -> roll_pitch_same (gf_x g) (gf_x g')).
Proof.
  intros Hc Hf E. assert (yinv g) as Y.
  { eapply (inv_hist yinv); [| | | | | |apply yinv_start; [exact Hc|exact Hf]|exact E].
    - intros. eapply yinv_same; eauto.
    - intros. eapply yinv_gyro; eauto.
    - intros. eapply yinv_walk; eauto.
    - intros g0 m [g1 o] Y E0. destruct (yinv_imu _ _ _ _ Y E0) as [Y1 _]. eapply yinv_same; [exact Y1|..]; reflexivity.
    - intros g0 m a [g1 o] Y E0. destruct (yinv_enc _ _ _ _ _ Y E0) as [Y1 _]. eapply yinv_same; [exact Y1|..]; reflexivity.
    - intros. apply yinv_cal; auto. }
  split; intros; [eapply yinv_imu; eauto|eapply yinv_enc; eauto].
Qed.
Record zinv (g : gfilt) : Prop := { zi_y : yinv g; zi_pm : gf_pm g = RANDOM_WALK; zi_0 : v0 (head3 (gf_x g)) = 0; zi_1 : v1 (head3 (gf_x g)) = 0;
  zi_o : forall m, In m (gf_out g) -> v0 (i_w m) = 0 /\ v1 (i_w m) = 0 }.
Lemma setup_pm l : forall g, ~ In AGyro l -> gf_pm (gf_setup g l) = gf_pm g /\ gf_x (gf_setup g l) = gf_x g /\ gf_out (gf_setup g l) = gf_out g.
Proof.
  unfold gf_setup. induction l as [|a l IH]; intros g N; [auto|]. cbn [fold_left]. destruct (IH (gf_add g a)) as (-> & -> & ->); [intros H; apply N; right; auto|].
  destruct a; cbn [gf_add]; [exfalso; apply N; left; auto|unfold add_imu_correction; destruct (Nat.eqb _ _)|]; auto.
Qed.
Lemma thm_flat_false_zero im av size c l os g : gcfg_ok c -> q_flat c <> Some true -> ~ In AGyro l -> gf_run (gf_setup (gf_make im av size c) l) os = Ok g ->
  forall m, In m (gf_out g) -> v0 (i_w m) = 0 /\ v1 (i_w m) = 0.
Proof.
  intros Hc Hf Hl E. assert (zinv g) as Z; [|apply Z].
  eapply (inv_hist zinv); [| | | | | | |exact E].
  - intros g0 g1 [] C X P M O. constructor; try congruence; [eapply yinv_same; eauto|]. intros m Hm. apply zi_o0, O, Hm.
  - intros g0 g1 [] Hp. congruence.
  - intros g0 g1 [] _ E0. destruct (yinv_walk _ _ zi_y0 E0) as [Y X]. apply walk_prop_inv in E0. destruct E0 as (P & _ & ->). constructor; auto.
  - intros g0 m [g1 o] [] E0. destruct (yinv_imu _ _ _ _ zi_y0 E0) as (Y1 & (R0 & R1 & _) & W & M & O). constructor; cbn [gf_push fst snd gf_set_out gf_x gf_pm gf_out]; try congruence; [eapply yinv_same; [exact Y1|..]; reflexivity|].
    intros n Hn. apply in_app_or in Hn. destruct Hn as [Hn|[<-|[]]]; [apply zi_o0; congruence|]. rewrite W. split; congruence.
  - intros g0 m a [g1 o] [] E0. destruct (yinv_enc _ _ _ _ _ zi_y0 E0) as (Y1 & (R0 & R1 & _) & W & M & O). constructor; cbn [gf_push fst snd gf_set_out gf_x gf_pm gf_out]; try congruence; [eapply yinv_same; [exact Y1|..]; reflexivity|].
    intros n Hn. apply in_app_or in Hn. destruct Hn as [Hn|[<-|[]]]; [apply zi_o0; congruence|]. rewrite W. split; congruence.
  - intros g0 avg []. constructor; [apply yinv_cal; auto|auto| | |auto]; cbn [gf_set_est gf_x]; rewrite head_vec6; reflexivity.
  - destruct (setup_pm l (gf_make im av size c) Hl) as (A & B & C). constructor; [apply yinv_start; auto|rewrite A; reflexivity| | |rewrite C; intros m []]; rewrite B; cbn [gf_make gf_x]; (destruct (dflt (q_static c) false); [unfold head3, getV3, vmk; cbn [v0 v1 Nat.add]; rewrite ent_O; reflexivity|rewrite head_vec6; reflexivity]).
Qed.

(** ** flat_ground = true *)
Definition flat_gcfg : gf_cfg := mkGCfg None (Some true) None None None None None None None None None None None.
Lemma flat_gain P x y x' P' : (forall i j, (i < 6)%nat -> (j < 6)%nat -> ent P i j = if Nat.eqb i j then 1 / 5000 else 0) -> nr P = 6%nat -> nc P = 6%nat -> x = mO 6 1 ->
  kalman_update x P (H_imu true) (ofM3 ((1 / 10 * (1 / 10)) *ms mid)) y x' P' -> head3 x' = (1 / 52) *s y.
Proof.
  intros EP P1 P2 -> (K & K1 & K2 & EK & -> & _). change (nr (mO 6 1)) with 6%nat in K1. change (nr (ofM3 _)) with 3%nat in K2.
  assert (forall k j, (k < 3)%nat -> (j < 6)%nat -> ent (H_imu true) k j = if Nat.eqb j k then 1 else if Nat.eqb j (3 + k) then 1 else 0) as EH by (intros; unfold H_imu; rewrite ent_mk by lia; reflexivity).
  assert (forall i k, (i < 6)%nat -> (k < 3)%nat -> ent (P *M mT (H_imu true)) i k = if Nat.eqb i k then 1 / 5000 else if Nat.eqb i (3 + k) then 1 / 5000 else 0) as EPH.
  { intros i k Hi Hk. rewrite ent_mult, P2. rewrite (sum_ext 6 _ (fun j => (if Nat.eqb i j then 1 / 5000 else 0) * (if Nat.eqb j k then 1 else if Nat.eqb j (3 + k) then 1 else 0))).
    - destruct i as [|[|[|[|[|[|i]]]]]]; try lia; destruct k as [|[|[|k]]]; try lia; cbn; ring.
    - intros j Hj. rewrite ent_T, EP, EH by lia. reflexivity. }
  assert (H_imu true *M P *M mT (H_imu true) +M ofM3 ((1 / 10 * (1 / 10)) *ms mid) = (13 / 1250) *S meye 3) as ES.
  { assert (nr (H_imu true) = 3%nat) as H1 by reflexivity. assert (nc (H_imu true) = 6%nat) as H2 by reflexivity.
    rewrite <- mmult_assoc. apply mat_ext; [reflexivity|reflexivity|]. intros i j Hi Hj. change (i < 3)%nat in Hi. change (j < 3)%nat in Hj.
    rewrite ent_plus by reflexivity. rewrite ent_scl, ent_eye by lia. rewrite ent_ofM3 by lia. rewrite ent_mult, H2.
    rewrite (sum_ext 6 _ (fun k => (if Nat.eqb k i then 1 else if Nat.eqb k (3 + i) then 1 else 0) * (if Nat.eqb k j then 1 / 5000 else if Nat.eqb k (3 + j) then 1 / 5000 else 0))).
    - destruct i as [|[|[|i]]]; try lia; destruct j as [|[|[|j]]]; try lia; cbn; lra.
    - intros k Hk. rewrite EPH, EH by lia. reflexivity. }
  rewrite ES in EK.
  assert (forall i k, (i < 6)%nat -> (k < 3)%nat -> 13 / 1250 * ent K i k = ent (P *M mT (H_imu true)) i k) as EKe.
  { intros i k Hi Hk. rewrite <- EK. rewrite ent_mult, K2. rewrite (sum_delta' _ k); [|intros j Hj N; rewrite ent_scl, ent_eye by lia; destruct (Nat.eqb_spec j k); [congruence|ring]|exact Hk].
    rewrite ent_scl, ent_eye, Nat.eqb_refl by lia. ring. }
  assert (forall i, (i < 3)%nat -> ent (mO 6 1 +M K *M (ofV3 y -M H_imu true *M mO 6 1)) i 0 = 1 / 52 * vget y i) as EX.
  { intros i Hi. rewrite ent_plus; [|rewrite nr_mult, K1; reflexivity|reflexivity]. rewrite ent_O, ent_mult, K2.
    rewrite (sum_ext 3 _ (fun k => ent K i k * vget y k)).
    - rewrite (sum_delta' _ i); [| |exact Hi].
      + pose proof (EKe i i ltac:(lia) Hi) as E1. rewrite EPH, Nat.eqb_refl in E1 by lia. assert (ent K i i = 1 / 52) as -> by lra. ring.
      + intros k Hk N. pose proof (EKe i k ltac:(lia) Hk) as E1. rewrite EPH in E1 by lia. destruct (Nat.eqb_spec i k); [congruence|]. destruct (Nat.eqb_spec i (3 + k)); [lia|]. assert (ent K i k = 0) as -> by lra. ring.
    - intros k Hk. f_equal. rewrite ent_minus by reflexivity. rewrite ent_mult. rewrite sum0 by (intros; rewrite ent_O; ring). rewrite ent_ofV3 by lia. ring. }
  unfold head3, getV3, vmk. cbn [Nat.add]. rewrite !EX by lia. destruct y; reflexivity.
Qed.
Lemma thm_flat_true m : exists g o, gf_run (gf_setup (ImuAngVelEKF_config flat_gcfg) [AImu; AAv]) [GRun; GImu m; GRun] = Ok g /\ gf_out g = [o] /\ i_w o = (1 / 52) *s i_w m.
Proof.
  set (g0 := gf_setup _ _). assert (gyro_inv g0) as I0 by (apply setup_inv, make_inv; split; discriminate).
  set (g1 := gf_mode (gf_mode g0 RANDOM_WALK SINGLE_IMU_PLUS_ANG_VEL 1 1 false) RANDOM_WALK SINGLE_IMU_PLUS_ANG_VEL 1 1 true). rewrite gf_run_cons.
  assert (gf_step g0 GRun = Ok g1) as -> by reflexivity. cbn [bind]. rewrite gf_run_cons. cbn [gf_step]. change (gf_imu g1) with (Some (@nil imu)). cbn [of_opt bind app]. rewrite gf_run_cons.
  set (g2 := gf_set_imu g1 [m]). assert (gyro_inv g2) as I2 by same I0. cbn [gf_step]. unfold ImuFilter_RunOnce. change (gf_init g2) with true. change (gf_pm g2) with RANDOM_WALK. cbn match.
  destruct (walk_inv g2 I2) as (g3 & E3 & I3 & _). rewrite E3. cbn [bind]. apply walk_prop_inv in E3. destruct E3 as (P & EP & ->).
  change (gf_P g2) with (diag_cov (1 / 100) (1 / 100)) in EP. change (gf_Q g2) with (diag_cov (1 / 100) (1 / 100)) in EP. rewrite cadd_ok in EP by reflexivity. injection EP as <-.
  set (P := diag_cov _ _ +M _) in *. set (g3 := gf_set_est g2 (gf_x g2) P) in *.
  change (gf_cm g3) with SINGLE_IMU_PLUS_ANG_VEL. cbn match. unfold SingleImuAngVelCorrection. change (gf_imu g3) with (Some [m]). change (gf_av g3) with (Some (@nil avmeas)). cbn [of_opt bind hd_error maybe_clear].
  set (g4 := gf_set_prev g3 _ _ _). assert (gyro_inv g4) as I4 by same I3. assert (in_time g4 (i_t m) = true) as ->. { unfold in_time. change (gf_last g4) with (-1). destruct (Req_EM_T _ _); [reflexivity|lra]. }
  destruct (correct_imu_ok g4 m I4) as (x & P' & E & _ & _ & K). rewrite E. cbn [bind]. change (gf_imu (gf_push _)) with (Some [m]). cbn [of_opt bind pop]. unfold gf_run. cbn [foldM].
  do 2 eexists. split; [reflexivity|]. split; [reflexivity|]. cbn [i_w].
  apply flat_gain in K; auto; [|].
  - intros i j Hi Hj. change (gf_P g4) with P. unfold P, diag_cov. rewrite ent_plus by reflexivity. rewrite !ent_mk by lia. destruct (Nat.eqb i j); [|ring]. destruct (i <? 3)%nat; lra.
  - change (gf_x g4) with (vec6 vzero vzero). apply vec6_0.
Qed.
