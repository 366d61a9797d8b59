(** Proofs about the gyro filter: covariance (C37). *)
From Coq Require Import Reals ZArith List Bool Arith Lia Lra.
From Verif Require Import Res Vec3 Mat MatInv Psd Spec LieGroup RobotState Imu Propagation ImuNeg VelThms ImuFilter SpecGyro.
Import ListNotations.
Local Open Scope R_scope.

Record gyro_inv (g : gfilt) : Prop := {
  gi_xr : nr (gf_x g) = 6%nat; gi_xc : nc (gf_x g) = 1%nat;
  gi_Pr : nr (gf_P g) = 6%nat; gi_P : psd (gf_P g);
  gi_Qr : nr (gf_Q g) = 6%nat; gi_Q : psd (gf_Q g);
  gi_Ri : pd (ofM3 (gf_Ri g)); gi_Re : pd (ofM3 (gf_Re g));
  gi_Hir : nr (gf_Hi g) = 3%nat; gi_Hic : nc (gf_Hi g) = 6%nat;
  gi_Her : nr (gf_He g) = 3%nat; gi_Hec : nc (gf_He g) = 6%nat }.

Lemma psd_diag_cov a b : psd (diag_cov a b).
Proof.
  set (A := mk 6 6 (fun i j => if Nat.eqb i j then (if Nat.ltb i 3 then a else b) else 0)).
  assert (diag_cov a b = A *M meye 6 *M mT A) as ->; [|apply psd_conj; [reflexivity|apply psd_eye]].
  rewrite mmult_eye_r by reflexivity. apply mat_ext; [reflexivity|reflexivity|]. intros i j Hi Hj. change (i < 6)%nat in Hi. change (j < 6)%nat in Hj.
  rewrite ent_mult. unfold diag_cov. rewrite ent_mk by lia. rewrite (sum_delta' _ i); [| |exact Hi].
  - unfold A. rewrite ent_T, !ent_mk, Nat.eqb_refl by lia. destruct (Nat.eqb_spec i j), (Nat.eqb_spec j i); subst; try congruence; [|ring]. destruct (j <? 3)%nat; ring.
  - intros k Hk N. change (k < 6)%nat in Hk. unfold A. rewrite ent_T, !ent_mk by lia. destruct (Nat.eqb_spec i k); [congruence|ring].
Qed.
Lemma pd_std c : 0 < c -> pd (ofM3 (c *ms mid)).
Proof.
  intros H. replace (ofM3 (c *ms mid)) with (c *S meye 3); [apply pd_scl; [auto|apply pd_eye]|].
  apply mat_ext; [reflexivity|reflexivity|]. intros i j Hi Hj. change (i < 3)%nat in Hi. change (j < 3)%nat in Hj.
  destruct i as [|[|[|i]]], j as [|[|[|j]]]; try lia; rewrite ent_scl, ent_eye, ent_ofM3 by lia; cbn; ring.
Qed.

Lemma update_spec x P H N y : nr x = 6%nat -> nc x = 1%nat -> nr P = 6%nat -> psd P -> nr H = 3%nat -> nc H = 6%nat -> pd (ofM3 N) ->
  exists x' P', ang_vel_update x P H N y = Ok (x', P') /\ nr x' = 6%nat /\ nc x' = 1%nat /\ nr P' = 6%nat /\ psd P' /\ loewner_le P' P /\
    kalman_update x P H (ofM3 N) y x' P'.
Proof.
  intros X1 X2 P1 HP H1 H2 HN. pose proof (psd_sq _ HP) as P2. rewrite P1 in P2. symmetry in P2.
  assert (nr (ofM3 N) = 3%nat) as N1 by reflexivity. assert (nc (ofM3 N) = 3%nat) as N2 by reflexivity.
  assert (pd (H *M P *M mT H +M ofM3 N)) as HS by (apply (kalman_S_pd P H (ofM3 N) 6 3); auto).
  destruct (pd_inv _ HS) as [Si ESi]. destruct (minv_some _ _ ESi) as (_ & S1 & S2 & S3 & S4).
  assert (nr (H *M P *M mT H +M ofM3 N) = 3%nat) as SS by mdim. rewrite SS in *.
  set (K := P *M mT H *M Si). assert (nr K = 6%nat) as K1 by (unfold K; mdim). assert (nc K = 3%nat) as K2 by (unfold K; mdim).
  assert (nr (ofV3 y) = 3%nat) as Y1 by reflexivity. assert (nc (ofV3 y) = 1%nat) as Y2 by reflexivity.
  exists (x +M K *M (ofV3 y -M H *M x)), ((meye 6 -M K *M H) *M P).
  assert (ang_vel_update x P H N y = Ok (x +M K *M (ofV3 y -M H *M x), (meye 6 -M K *M H) *M P)) as E.
  { unfold ang_vel_update. rewrite cmul_ok by mdim. cbn [bind]. rewrite csub_ok by mdim. cbn [bind]. rewrite cmul_ok by mdim. cbn [bind].
    rewrite cmul_ok by mdim. cbn [bind]. rewrite cadd_ok by mdim. cbn [bind]. unfold cinv. rewrite ESi.
    assert (nc (H *M P *M mT H +M ofM3 N) = 3%nat) as SS2 by mdim. rewrite ?SS, ?SS2, ?Nat.eqb_refl. cbn [bind of_opt].
    rewrite cmul_ok by mdim. cbn [bind]. rewrite cmul_ok by mdim. cbn [bind]. fold K. rewrite cmul_ok by mdim. cbn [bind]. rewrite cadd_ok by mdim. cbn [bind].
    rewrite cmul_ok by mdim. cbn [bind]. rewrite csub_ok by mdim. cbn [bind]. rewrite cmul_ok by mdim. reflexivity. }
  split; [exact E|]. split; [mdim|]. split; [mdim|]. split; [mdim|].
  pose proof (pd_psd _ HN) as HN'.
  pose proof (kalman_simple_eq P H (ofM3 N) Si 6 3 HP HN' P1 H1 H2 N1 ESi) as KE. fold K in KE.
  pose proof (kalman_joseph_psd P H (ofM3 N) Si 6 3 HP HN' P1 H1 H2 N1 ESi) as KP. fold K in KP.
  pose proof (kalman_decrease P H (ofM3 N) Si 6 3 HP HN' P1 H1 H2 N1 ESi) as KD. fold K in KD.
  assert (K *M (H *M P *M mT H +M ofM3 N) = P *M mT H) as KS by (unfold K; rewrite <- mmult_assoc, S4; apply mmult_eye_r; mdim).
  rewrite <- KE. split; [exact KP|]. split; [exact KD|]. exists K. rewrite X1, N1. auto.
Qed.

(** ** the invariant along histories *)
Definition gf_const (g : gfilt) := (gf_Q g, gf_Ri g, gf_Re g, gf_Hi g, gf_He g, (gf_thr g, gf_Rinv g, gf_static g, gf_size g)).
Lemma inv_est g g' : gyro_inv g -> gf_const g' = gf_const g -> nr (gf_x g') = 6%nat -> nc (gf_x g') = 1%nat -> nr (gf_P g') = 6%nat -> psd (gf_P g') -> gyro_inv g'.
Proof. intros [] E. unfold gf_const in E. injection E as E1 E2 E3 E4 E5 _. intros. constructor; rewrite ?E1, ?E2, ?E3, ?E4, ?E5; auto. Qed.
Lemma inv_same g g' : gyro_inv g -> gf_const g' = gf_const g -> gf_x g' = gf_x g -> gf_P g' = gf_P g -> gyro_inv g'.
Proof. intros I E X P. apply (inv_est g); auto; rewrite ?X, ?P; apply I. Qed.
Lemma vec6_dim a b : nr (vec6 a b) = 6%nat /\ nc (vec6 a b) = 1%nat. Proof. split; reflexivity. Qed.

Lemma propagate_inv g : gyro_inv g -> (forall g', GyroPropagate g = Ok g' -> gyro_inv g' /\ gf_const g' = gf_const g) /\ (forall er, GyroPropagate g = Fail er -> er = NullDeref).
Proof.
  intros I. unfold GyroPropagate. destruct (gf_gyro g) as [q|]; cbn [of_opt bind]; [|split; [discriminate|intros er [= <-]; auto]].
  destruct q as [|m q]; [split; [intros g' [= <-]; auto|discriminate]|].
  cbn [gf_set_prev gf_set_gyro gf_queues gf_x gf_P gf_Q gf_prev gf_cm gf_latest]. pose proof I as []. pose proof (psd_sq _ gi_P0). pose proof (psd_sq _ gi_Q0).
  destruct (vec6_dim (i_w m -v gf_prev g) vzero) as [V1 V2].
  rewrite cadd_ok by congruence. cbn [bind]. rewrite cadd_ok by congruence. cbn [bind]. split; [|discriminate]. intros g' [= <-].
  split; [|reflexivity]. apply (inv_est g); auto; cbn [gf_set_est gf_x gf_P]; try mdim. apply psd_plus; auto; congruence.
Qed.
Lemma walk_inv g : gyro_inv g -> exists g', RandomWalkPropagate g = Ok g' /\ gyro_inv g' /\ gf_const g' = gf_const g.
Proof.
  intros I. unfold RandomWalkPropagate. pose proof I as []. pose proof (psd_sq _ gi_P0). pose proof (psd_sq _ gi_Q0).
  rewrite cadd_ok by congruence. cbn [bind]. eexists. split; [reflexivity|]. split; [|reflexivity].
  apply (inv_est g); auto; cbn [gf_set_est gf_x gf_P]; try mdim. apply psd_plus; auto; congruence.
Qed.
Lemma correct_imu_ok g m : gyro_inv g -> exists x P, AngVelFilterCorrectIMU g m = Ok (gf_set_est g x P, mkImu (i_t m) (i_q m) (head3 x) (i_a m)) /\
  gyro_inv (gf_set_est g x P) /\ loewner_le P (gf_P g) /\ kalman_update (gf_x g) (gf_P g) (gf_Hi g) (ofM3 (gf_Ri g)) (i_w m) x P.
Proof.
  intros I. pose proof I as []. destruct (update_spec (gf_x g) (gf_P g) (gf_Hi g) (gf_Ri g) (i_w m)) as (x & P & E & A1 & A2 & A3 & A4 & A5 & A6); auto.
  exists x, P. unfold AngVelFilterCorrectIMU. rewrite E. cbn [bind]. split; [reflexivity|]. split; [apply (inv_est g); auto|]. auto.
Qed.
Lemma correct_enc_ok g m a : gyro_inv g -> exists x P, AngVelFilterCorrectEncoder g m a = Ok (gf_set_est g x P, mkImu (av_t a) (i_q m) (head3 x) (i_a m)) /\
  gyro_inv (gf_set_est g x P) /\ loewner_le P (gf_P g) /\ kalman_update (gf_x g) (gf_P g) (gf_He g) (ofM3 (gf_Re g)) (gf_Rinv g *v av_w a) x P.
Proof.
  intros I. pose proof I as []. destruct (update_spec (gf_x g) (gf_P g) (gf_He g) (gf_Re g) (gf_Rinv g *v av_w a)) as (x & P & E & A1 & A2 & A3 & A4 & A5 & A6); auto.
  exists x, P. unfold AngVelFilterCorrectEncoder. rewrite E. cbn [bind]. split; [reflexivity|]. split; [apply (inv_est g); auto|]. auto.
Qed.

(** a function that keeps the invariant and the constants, and fails only for reasons other
    than sizes or a singular matrix *)
Definition benign (er : err) : Prop := er = NullDeref \/ er = EmptyQueue \/ er = BadRead \/ er = DivZero.
Definition keeps (g : gfilt) (r : res gfilt) : Prop :=
  match r with Ok g' => gyro_inv g' /\ gf_const g' = gf_const g | Fail er => benign er end.
Lemma keeps_ok g g' : gyro_inv g -> gf_const g' = gf_const g -> gf_x g' = gf_x g -> gf_P g' = gf_P g -> keeps g (Ok g').
Proof. intros. split; [eapply inv_same; eauto|auto]. Qed.
Lemma keeps_bind g r f : keeps g r -> (forall g', gyro_inv g' -> gf_const g' = gf_const g -> keeps g' (f g')) -> keeps g (bind r f).
Proof. destruct r as [g1|er]; cbn; [|auto]. intros [I C] H. specialize (H g1 I C). destruct (f g1); cbn in *; [|auto]. destruct H; split; [auto|congruence]. Qed.
Lemma keeps_const g g1 r : gf_const g1 = gf_const g -> keeps g1 r -> keeps g r.
Proof. destruct r; cbn; [|auto]. intros E [I C]. split; [auto|congruence]. Qed.
Lemma bn : benign NullDeref. Proof. left; auto. Qed.
Lemma be : benign EmptyQueue. Proof. right; auto. Qed.
#[local] Hint Resolve bn be : core.
Lemma keeps_opt {A} g (o : option A) f : (forall x, o = Some x -> keeps g (f x)) -> keeps g (let* x := of_opt o NullDeref in f x).
Proof. destruct o; cbn; auto. Qed.
Lemma keeps_pop {A} g (q : list A) f : (forall q', keeps g (f q')) -> keeps g (let* q' := pop q in f q').
Proof. destruct q; cbn; auto. Qed.
Lemma keeps_clear g : gyro_inv g -> keeps g (ImuFilter_clear g).
Proof. intros I. unfold ImuFilter_clear. apply keeps_opt. intros _ _. apply keeps_opt. intros _ _. apply keeps_ok; auto. Qed.
Lemma keeps_maybe b g : gyro_inv g -> keeps g (maybe_clear b g).
Proof. destruct b; [apply keeps_clear|]. intros I. apply keeps_ok; auto. Qed.
Lemma keeps_cimu g m : gyro_inv g -> keeps g (let* p := AngVelFilterCorrectIMU g m in Ok (gf_push p)).
Proof. intros I. destruct (correct_imu_ok g m I) as (x & P & E & I' & _). rewrite E. cbn [bind]. split; [eapply inv_same; [exact I'|..]; reflexivity|reflexivity]. Qed.
Lemma keeps_cenc g m a : gyro_inv g -> keeps g (let* p := AngVelFilterCorrectEncoder g m a in Ok (gf_push p)).
Proof. intros I. destruct (correct_enc_ok g m a I) as (x & P & E & I' & _). rewrite E. cbn [bind]. split; [eapply inv_same; [exact I'|..]; reflexivity|reflexivity]. Qed.

Lemma keeps_single g clr : gyro_inv g -> keeps g (SingleImuCorrection g clr).
Proof.
  intros I. unfold SingleImuCorrection. apply keeps_opt. intros q Eq. destruct q as [|m q]; [apply keeps_maybe; auto|].
  destruct (Rle_dec _ _); [|apply keeps_maybe; auto]. destruct (Rle_dec _ _); [|apply keeps_maybe; auto].
  assert (gyro_inv (gf_set_imu g q)) as I' by (eapply inv_same; [exact I|..]; reflexivity).
  apply (keeps_const _ (gf_set_imu g q)); [reflexivity|]. apply keeps_bind; [apply keeps_maybe; auto|]. intros. apply keeps_cimu; auto.
Qed.
Lemma keeps_multi : forall todo g fused done, gyro_inv g -> keeps g (multi_loop g fused done todo).
Proof.
  induction todo as [|q qs IH]; intros g fused done I; cbn [multi_loop]; [apply keeps_ok; auto|]. destruct q as [|m q]; [apply IH; auto|].
  destruct (in_time g (i_t m)).
  - destruct (correct_imu_ok g m I) as (x & P & E & I' & _). rewrite E. cbn [bind]. apply (keeps_const g (gf_set_out (gf_set_est g x P) (gf_out (gf_set_est g x P) ++ [mkImu (i_t m) (i_q m) (head3 x) (i_a m)]))); [reflexivity|].
    apply IH. eapply inv_same; [exact I'|..]; reflexivity.
  - cbn [bind]. destruct fused as [f|]; [|apply IH; auto]. eapply (keeps_const g); [|apply IH]; [reflexivity|]. eapply inv_same; [exact I|..]; reflexivity.
Qed.
Lemma keeps_both g clr : gyro_inv g -> keeps g (SingleImuAngVelCorrection g clr).
Proof.
  intros I. unfold SingleImuAngVelCorrection. apply keeps_opt. intros qi Ei. apply keeps_opt. intros qa Ea.
  destruct (match hd_error qi with Some _ => _ | None => _ end) as [im av]. apply keeps_bind; [apply keeps_maybe; auto|]. intros g1 I1 C1.
  destruct im as [m|]; [|destruct av as [a|]].
  - set (g2 := gf_set_prev g1 _ _ _). assert (gyro_inv g2) as I2 by (eapply inv_same; [exact I1|..]; reflexivity). apply (keeps_const g1 g2); [reflexivity|].
    apply keeps_bind; [destruct (in_time g2 (i_t m)); [apply keeps_cimu; auto|apply keeps_ok; auto]|].
    intros g3 I3 C3. apply keeps_opt. intros q Eq. apply keeps_pop. intros q'. apply keeps_ok; auto.
  - apply keeps_bind; [destruct (gf_latest g1); [destruct (in_time g1 (av_t a)); [apply keeps_cenc; auto|]|]; apply keeps_ok; auto|].
    intros g3 I3 C3. apply keeps_opt. intros q Eq. apply keeps_pop. intros q'. apply keeps_ok; auto.
  - apply keeps_ok; auto.
Qed.
Lemma keeps_av g clr : gyro_inv g -> keeps g (AngVelCorrection g clr).
Proof.
  intros I. unfold AngVelCorrection. apply keeps_opt. intros q Eq. destruct q as [|a q]; [apply keeps_maybe; auto|].
  apply keeps_bind; [apply keeps_maybe; auto|]. intros g1 I1 C1.
  apply keeps_bind; [destruct (gf_latest g1); [apply keeps_cenc; auto|apply keeps_ok; auto]|].
  intros g3 I3 C3. apply keeps_opt. intros q' Eq'. apply keeps_pop. intros q2. apply keeps_ok; auto.
Qed.
Lemma keeps_init g : gyro_inv g -> keeps g (InitializeFilter g).
Proof.
  intros I. unfold InitializeFilter. destruct (gf_size g) as [size|]; cbn [of_opt bind]; [|right; right; left; reflexivity].
  destruct (_ && _)%bool.
  - apply keeps_opt. intros q Eq. destruct q as [|m q]; [apply keeps_ok; auto|]. cbn [gf_set_vec gf_set_imu gf_queues gf_pm gf_gyro].
    destruct (gf_pm g); [|apply keeps_ok; auto]. apply keeps_opt. intros q' Eq'. destruct q'; apply keeps_ok; auto.
  - destruct (gf_static g); [|apply keeps_ok; auto]. unfold average. destruct (gf_vec g) as [|v l]; [right; right; right; reflexivity|]. cbn [bind].
    set (g1 := gf_set_est g _ _). assert (gyro_inv g1) as I1 by (apply (inv_est g); auto; try apply I; apply vec6_dim).
    apply (keeps_const g g1); [reflexivity|]. apply keeps_bind; [destruct (gf_pm g1); [apply keeps_opt; intros|]; apply keeps_ok; auto|]. intros g2 I2 _.
    apply keeps_bind; [destruct (gf_cm g2); try (apply keeps_opt; intros); apply keeps_ok; auto|]. intros g3 I3 _.
    apply keeps_bind; [destruct (gf_cm g3); try (apply keeps_opt; intros); apply keeps_ok; auto|]. intros g4 I4 _. apply keeps_ok; auto.
Qed.
Lemma keeps_run g clr : gyro_inv g -> keeps g (ImuFilter_RunOnce g clr).
Proof.
  intros I. unfold ImuFilter_RunOnce. destruct (gf_init g).
  - apply keeps_bind.
    + destruct (gf_pm g); [|destruct (walk_inv g I) as (g' & -> & I' & C'); split; auto].
      destruct (propagate_inv g I) as [A B]. destruct (GyroPropagate g) as [g'|er]; [apply A; auto|]. rewrite (B er); auto. exact bn.
    + intros g1 I1 _. destruct (gf_cm g1).
      * apply keeps_both; auto.
      * apply keeps_single; auto.
      * apply keeps_bind; [apply keeps_maybe; auto|]. intros. apply keeps_multi; auto.
      * apply keeps_av; auto.
      * apply keeps_maybe; auto.
  - apply keeps_bind; [apply keeps_maybe; auto|]. intros g1 I1 _. set (g2 := gf_mode g1 _ _ _ _ _).
    apply (keeps_const g1 g2); [reflexivity|]. apply keeps_init. eapply inv_same; [exact I1|..]; reflexivity.
Qed.
Lemma keeps_step g o : gyro_inv g -> keeps g (gf_step g o).
Proof.
  intros I. destruct o; cbn [gf_step]; [apply keeps_opt; intros; apply keeps_ok; auto|apply keeps_opt; intros; apply keeps_ok; auto|apply keeps_ok; auto
    |apply keeps_opt; intros; apply keeps_ok; auto|apply keeps_run; auto|apply keeps_run; auto|apply keeps_clear; auto|apply keeps_ok; auto].
Qed.
Lemma keeps_hist : forall os g, gyro_inv g -> keeps g (gf_run g os).
Proof.
  induction os as [|o os IH]; intros g I; [apply keeps_ok; auto|]. unfold gf_run. cbn [foldM]. apply keeps_bind; [apply keeps_step; auto|]. intros. apply IH; auto.
Qed.
Lemma make_inv im av size c : gcfg_ok c -> gyro_inv (gf_make im av size c).
Proof.
  intros [C1 C2]. assert (forall o, o <> Some 0 -> pd (ofM3 ((dflt o (1 / 10) * dflt o (1 / 10)) *ms mid))) as HN.
  { intros o Ho. apply pd_std. destruct o as [x|]; cbn; [|lra]. assert (x <> 0) by congruence. nra. }
  constructor; cbn; try reflexivity; auto; try apply psd_diag_cov; destruct (dflt (q_static c) false); reflexivity.
Qed.
Lemma setup_inv : forall l g, gyro_inv g -> gyro_inv (gf_setup g l).
Proof.
  induction l as [|a l IH]; intros g I; [exact I|]. cbn [gf_setup fold_left]. apply IH. destruct a; cbn [gf_add].
  - eapply inv_same; [exact I|..]; reflexivity.
  - unfold add_imu_correction. destruct (Nat.eqb _ _); eapply inv_same; try exact I; reflexivity.
  - eapply inv_same; [exact I|..]; reflexivity.
Qed.
Lemma thm_gyro_psd im av size c l os : gcfg_ok c ->
  match gf_run (gf_setup (gf_make im av size c) l) os with
  | Ok g => nr (gf_x g) = 6%nat /\ nc (gf_x g) = 1%nat /\ nr (gf_P g) = 6%nat /\ psd (gf_P g)
  | Fail er => er <> SingularInverse /\ er <> EigenAssert
  end.
Proof.
  intros HC. pose proof (keeps_hist os _ (setup_inv l _ (make_inv im av size c HC))) as H. destruct (gf_run _ os) as [g|er].
  - destruct H as [[] _]. auto.
  - destruct H as [->|[->|[->| ->]]]; split; discriminate.
Qed.
Lemma run_inv im av size c l os g : gcfg_ok c -> gf_run (gf_setup (gf_make im av size c) l) os = Ok g -> gyro_inv g.
Proof. intros HC E. pose proof (keeps_hist os _ (setup_inv l _ (make_inv im av size c HC))) as H. rewrite E in H. apply H. Qed.
Lemma thm_gyro_update im av size c l os g : gcfg_ok c -> gf_run (gf_setup (gf_make im av size c) l) os = Ok g ->
  (forall m, exists g' out, AngVelFilterCorrectIMU g m = Ok (g', out) /\ loewner_le (gf_P g') (gf_P g) /\
     kalman_update (gf_x g) (gf_P g) (gf_Hi g) (ofM3 (gf_Ri g)) (i_w m) (gf_x g') (gf_P g')) /\
  (forall m a, exists g' out, AngVelFilterCorrectEncoder g m a = Ok (g', out) /\ loewner_le (gf_P g') (gf_P g) /\
     kalman_update (gf_x g) (gf_P g) (gf_He g) (ofM3 (gf_Re g)) (gf_Rinv g *v av_w a) (gf_x g') (gf_P g')).
Proof.
  intros HC E. pose proof (run_inv _ _ _ _ _ _ _ HC E) as I. split; intros.
  - destruct (correct_imu_ok g m I) as (x & P & E1 & _ & L & K). do 2 eexists. split; [exact E1|]. auto.
  - destruct (correct_enc_ok g m a I) as (x & P & E1 & _ & L & K). do 2 eexists. split; [exact E1|]. auto.
Qed.
