(** Proofs: the slip flag never changes (slip detection is never switched on). *)
From Coq Require Import Reals ZArith List Bool Arith Lia Lra.
From Verif Require Import Res Vec3 Mat MatInv Psd Spec LieGroup RobotState Inekf SpecFilter Imu Propagation Queue VelCorr LegCorr SpecCorr VelThms LegHist Estimator SpecEst EstInv EstSafe EstHist EstMisc.
Import ListNotations.
Local Open Scope R_scope.

Ltac inv_bind E :=
  repeat (match type of E with bind _ _ = _ => let X := fresh "B" in apply bind_inv in E; destruct E as (? & X & E) end).
Lemma CR_slip Z H N s e s' : CorrectRightInvariant Z H N s e = Ok s' -> sslip s' = sslip s.
Proof. unfold CorrectRightInvariant. cbv zeta. intros E. do 3 (apply bind_inv in E; destruct E as (? & _ & E)). apply bind_inv in E. destruct E as ([? ?] & _ & E). inv_bind E. injection E as <-. reflexivity. Qed.
Lemma CL_slip Z H N s e s' : CorrectLeftInvariant Z H N s e = Ok s' -> sslip s' = sslip s.
Proof. unfold CorrectLeftInvariant. cbv zeta. intros E. do 3 (apply bind_inv in E; destruct E as (? & _ & E)). apply bind_inv in E. destruct E as ([? ?] & _ & E). inv_bind E. injection E as <-. reflexivity. Qed.
Lemma Propagate_slip ip s b ip' s' : Propagate ip s = Ok (b, ip', s') -> sslip s' = sslip s.
Proof.
  unfold Propagate. destruct (ip_queue ip); [intros [= <- <- <-]; reflexivity|]. intros E. apply bind_inv in E. destruct E as (m & _ & E).
  apply bind_inv in E. destruct E as (s1 & E1 & E). injection E as <- <- <-. unfold propagate_with in E1. cbv zeta in E1.
  do 3 (apply bind_inv in E1; destruct E1 as (? & _ & E1)). destruct (body_rates _ _ _ _). inv_bind E1. injection E1 as <-. reflexivity.
Qed.
Lemma vel_update_slip c m s s' : vel_update c m s = Ok s' -> sslip s' = sslip s.
Proof. unfold vel_update. cbv zeta. intros E. inv_bind E. apply CR_slip in E. exact E. Qed.
Lemma vel_Correct_slip c s a b c' s' : vel_Correct c s a = Ok (b, c', s') -> sslip s' = sslip s.
Proof.
  unfold vel_Correct. destruct (vc_queue c ++ hd_batch a); [intros [= <- <- <-]; reflexivity|]. intros E. apply bind_inv in E. destruct E as (tp & _ & E).
  destruct (not_past tp (vm_t v)); [injection E as <- <- <-; reflexivity|]. destruct (if too_old _ _ _ then _ else _) as [[r q] bs]. destruct r; [|injection E as <- <- <-; reflexivity].
  apply bind_inv in E. destruct E as (s1 & E1 & E). injection E as <- <- <-. apply vel_update_slip in E1. exact E1.
Qed.
Lemma remove_slip h s m id h' s' m' : remove_leg (h, s, m) id = Ok (h', s', m') -> sslip s' = sslip s.
Proof.
  unfold remove_leg. intros E. inv_bind E. destruct x1 as [h1 s1]. injection E as <- <- <-. unfold del_aug_state in B1.
  apply bind_inv in B1. destruct B1 as ([h2 m2] & _ & E). do 2 (apply bind_inv in E; destruct E as (? & _ & E)). apply bind_inv in E. destruct E as (s2 & C1 & E).
  apply bind_inv in E. destruct E as (s3 & C2 & E). injection E as _ <-. unfold del_aug_cov in C1. unfold del_aug_noise_cov in C2. inv_bind C1. injection C1 as <-. inv_bind C2. injection C2 as <-. reflexivity.
Qed.
Lemma removes_slip : forall l h s m h' s' m', foldM remove_leg (h, s, m) l = Ok (h', s', m') -> sslip s' = sslip s.
Proof.
  induction l as [|i l IH]; intros h s m h' s' m' E; cbn [foldM] in E; [injection E as <- <- <-; reflexivity|].
  apply bind_inv in E. destruct E as ([[h1 s1] m1] & E1 & E). apply remove_slip in E1. apply IH in E. congruence.
Qed.
Lemma add_slip c h s m P n h' s' m' P' : add_leg c (h, s, m, P) n = Ok (h', s', m', P') -> sslip s' = sslip s.
Proof.
  destruct n as [[id f] cov]. unfold add_leg. cbv zeta. intros E. do 2 (apply bind_inv in E; destruct E as (? & _ & E)). apply bind_inv in E. destruct E as ([F G] & _ & E).
  do 5 (apply bind_inv in E; destruct E as (? & _ & E)). destruct (heap_new h (Z.of_nat (dimX s))) as [h1 a]. apply bind_inv in E. destruct E as ([s1 i] & E1 & E).
  apply bind_inv in E. destruct E as (h2 & _ & E). injection E as <- <- <- <-. unfold add_aug_state in E1. cbv zeta in E1. inv_bind E1. injection E1 as <- <-. reflexivity.
Qed.
Lemma adds_slip c : forall l h s m P h' s' m' P', foldM (add_leg c) (h, s, m, P) l = Ok (h', s', m', P') -> sslip s' = sslip s.
Proof.
  induction l as [|i l IH]; intros h s m P h' s' m' P' E; cbn [foldM] in E; [injection E as <- <- <- <-; reflexivity|].
  apply bind_inv in E. destruct E as ([[[h1 s1] m1] P1] & E1 & E). apply add_slip in E1. apply IH in E. congruence.
Qed.
Lemma leg_update_slip c h m s c' h' s' : leg_update c h m s = Ok (c', h', s') -> sslip s' = sslip s.
Proof.
  unfold leg_update. cbv zeta. intros E. apply bind_inv in E. destruct E as ([[[[H N] Z] rem] new] & _ & E). apply bind_inv in E. destruct E as (s1 & E1 & E).
  apply bind_inv in E. destruct E as ([[h2 s2] m2] & E2 & E). apply bind_inv in E. destruct E as ([[[h3 s3] m3] P3] & E3 & E). injection E as <- <- <-.
  apply adds_slip in E3. apply removes_slip in E2. rewrite E3, E2. destruct (0 <? nr Z)%nat; [|injection E1 as <-; reflexivity].
  destruct (stype _); [apply CR_slip in E1|apply CL_slip in E1]; exact E1.
Qed.
Lemma leg_Correct_slip c h s a b c' h' s' : leg_Correct c h s a = Ok (b, c', h', s') -> sslip s' = sslip s.
Proof.
  unfold leg_Correct. destruct (lc_queue c ++ hd_batch a); [intros [= <- <- <- <-]; reflexivity|]. intros E. apply bind_inv in E. destruct E as (tp & _ & E).
  destruct (if too_old _ _ _ then _ else _) as [[r q] bs]. destruct r; [|injection E as <- <- <- <-; reflexivity].
  apply bind_inv in E. destruct E as ([[c1 h1] s1] & E1 & E). injection E as <- <- <- <-. apply leg_update_slip in E1. exact E1.
Qed.
Lemma correct_all_slip : forall cs h s l b cs' h' s', correct_all cs h s l = Ok (b, cs', h', s') -> sslip s' = sslip s.
Proof.
  induction cs as [|c cs IH]; intros h s l b cs' h' s' E; cbn [correct_all] in E; [injection E as <- <- <- <-; reflexivity|].
  apply bind_inv in E. destruct E as ([[[b1 c1] h1] s1] & E1 & E). apply bind_inv in E. destruct E as ([[[b2 cs2] h2] s2] & E2 & E). injection E as <- <- <- <-.
  apply IH in E2. rewrite E2. destruct c as [c|c]; cbn [corr_Correct] in E1; inv_bind E1.
  - destruct x as [[? ?] ?]. injection E1 as <- <- <- <-. eapply vel_Correct_slip; eauto.
  - destruct x as [[[? ?] ?] ?]. injection E1 as <- <- <- <-. eapply leg_Correct_slip; eauto.
Qed.
Lemma vel_spin_slip : forall sched c s c' s', vel_spin c s sched = Ok (c', s') -> sslip s' = sslip s.
Proof.
  assert (forall c s a b c' s', vel_initialize c s a = Ok (b, c', s') -> sslip s' = sslip s) as HI.
  { intros c s a b c' s'. unfold vel_initialize. destruct (vc_queue c ++ a); [intros [= <- <- <-]; reflexivity|]. intros E. inv_bind E. unfold set_velocity in B0. inv_bind B0.
    injection B0 as <-. injection E as <- <- <-. reflexivity. }
  induction sched as [|x xs IH]; intros c s c' s' E; cbn [vel_spin] in E; apply bind_inv in E; destruct E as ([[b c1] s1] & E1 & E); apply HI in E1; destruct b; try discriminate;
    try (injection E as <- <-; exact E1). apply IH in E. congruence.
Qed.
Lemma leg_spin_slip : forall sched c s c' s', leg_spin c s sched = Ok (c', s') -> sslip s' = sslip s.
Proof.
  assert (forall c s a b c' s', leg_initialize c s a = Ok (b, c', s') -> sslip s' = sslip s) as HI.
  { intros c s a b c' s'. unfold leg_initialize. destruct (lc_queue c ++ a); [intros [= <- <- <-]; reflexivity|]. intros E. inv_bind E. unfold set_velocity in B1. inv_bind B1.
    injection B1 as <-. injection E as <- <- <-. reflexivity. }
  induction sched as [|x xs IH]; intros c s c' s' E; cbn [leg_spin] in E; apply bind_inv in E; destruct E as ([[b c1] s1] & E1 & E); apply HI in E1; destruct b; try discriminate;
    try (injection E as <- <-; exact E1). apply IH in E. congruence.
Qed.
Lemma spin_all_slip : forall cs s l cs' s', spin_all cs s l = Ok (cs', s') -> sslip s' = sslip s.
Proof.
  induction cs as [|c cs IH]; intros s l cs' s' E; cbn [spin_all] in E; [injection E as <- <-; reflexivity|].
  apply bind_inv in E. destruct E as ([c1 s1] & E1 & E). apply bind_inv in E. destruct E as ([cs2 s2] & E2 & E). injection E as <- <-.
  apply IH in E2. rewrite E2. destruct c as [c|c]; cbn [corr_spin] in E1; inv_bind E1; destruct x; injection E1 as <- <-; [eapply vel_spin_slip|eapply leg_spin_slip]; eauto.
Qed.
Ltac setter B := unfold set_rotation, set_position, set_velocity, set_gyroscope_bias, set_accelerometer_bias, set_gyroscope_bias_covariance, set_accelerometer_bias_covariance,
  set_rotation_covariance, set_velocity_covariance, set_position_covariance in B; try unfold set_cov3 in B; cbv zeta in B; inv_bind B; injection B as <-.
Lemma set_initial_slip ip s b ip' s' : set_initial_state ip s = Ok (b, ip', s') -> sslip s' = sslip s.
Proof.
  unfold set_initial_state. destruct (ip_queue ip); [intros [= <- <- <-]; reflexivity|]. cbv zeta. intros E. inv_bind E. injection E as <- <- <-.
  setter B4. setter B3. setter B2. setter B1. setter B0. setter B. reflexivity.
Qed.
Lemma step_slip e o e' : e_slip e = false -> est_step e o = Ok e' -> sslip (e_state e') = sslip (e_state e).
Proof.
  intros HS E. destruct o; cbn [est_step] in E.
  - inv_bind E. injection E as <-. reflexivity.
  - injection E as <-. reflexivity.
  - injection E as <-. reflexivity.
  - unfold InitBias in E. inv_bind E. injection E as <-. reflexivity.
  - unfold InitState in E. apply bind_inv in E. destruct E as (ip & _ & E). apply bind_inv in E. destruct E as ([[b ip'] s] & E1 & E). apply set_initial_slip in E1.
    destruct b; cbn [negb] in E; [|injection E as <-; exact E1]. apply bind_inv in E. destruct E as ([cs s1] & E2 & E). apply spin_all_slip in E2. inv_bind E. injection E as <-. cbn [e_state e_set].
    setter B1. setter B0. setter B. cbn. congruence.
  - unfold RunOnce in E. apply bind_inv in E. destruct E as (ip & _ & E). apply bind_inv in E. destruct E as ([[b ip'] s] & E1 & E). apply Propagate_slip in E1.
    apply bind_inv in E. destruct E as ([[[b2 cs] h] s1] & E2 & E). apply correct_all_slip in E2. rewrite HS in E. destruct (b || b2); cbn [bind] in E; injection E as <-; cbn; congruence.
  - unfold Clear in E. apply bind_inv in E. destruct E as (ip & _ & E). cbv zeta in E. cbn [e_set e_logger e_names e_count] in E. destruct (e_logger e); [destruct (e_names e)|]; injection E as <-; reflexivity.
  - injection E as <-. reflexivity.
  - injection E as <-. unfold LogPop. destruct (e_pending e), (e_logq e); reflexivity.
  - unfold LogWrite in E. destruct (e_pending e); [|injection E as <-; reflexivity]. apply bind_inv in E. destruct E as (t & _ & E). destruct (_ && _); [|injection E as <-; reflexivity].
    inv_bind E. injection E as <-. reflexivity.
Qed.
Lemma run_slip f : forall os e, est_run (build f) os = Ok e -> sslip (e_state e) = 0%Z.
Proof.
  assert (forall os e e', e_slip e = false -> est_run e os = Ok e' -> sslip (e_state e') = sslip (e_state e)) as H.
  { induction os as [|o os IH]; intros e e' HS E; cbn [est_run foldM] in E; [injection E as <-; reflexivity|]. apply bind_inv in E. destruct E as (e1 & E1 & E).
    destruct (step_fixed _ _ _ E1) as (F & _ & _). assert (e_slip e1 = e_slip e) as Q by (unfold e_fixed in F; congruence).
    rewrite (IH e1 e'); [|congruence|exact E]. eapply step_slip; eauto. }
  intros os e E. apply H in E; [|rewrite build_eq; reflexivity]. rewrite E, build_eq. reflexivity.
Qed.
