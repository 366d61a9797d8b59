(** Proofs: C30, clear. *)
From Coq Require Import Reals ZArith List Bool Arith Lia Lra.
From Verif Require Import Res Vec3 Mat MatInv Psd Spec LieGroup LieSO3 LieSEK RobotState StateProofs Inekf SpecFilter InekfThms Blk Imu Propagation SpecProp
  PropagationThms ImuRest ImuThms ImuNeg Queue VelCorr LegCorr SpecCorr VelThms PsdBlk LegThms LegUpd LegHist Estimator SpecEst EstInv EstSafe EstPub EstHist EstTime
  ConvFilter SpecConv SpecClear ClearShift.
Import ListNotations.
Local Open Scope R_scope.

Definition no_prev (ip : imu_prop) : imu_prop :=
  mkIP (ip_queue ip) (ip_err ip) (ip_static ip) (ip_init_size ip) (ip_use_ori ip) (ip_Rib ip) (ip_gyro_cov ip) (ip_accel_cov ip)
    (ip_gyro_bias_cov ip) (ip_accel_bias_cov ip) (ip_bg0 ip) (ip_ba0 ip) (ip_enable ip) (ip_t ip) (ip_bias_init ip) (ip_vec ip) None.
(** e0 and e1 behave the same; e1 has an additional heap g nothing refers to *)
Record rel (g : heap) (e0 e1 : est) : Prop := {
  r_heap : e_heap e1 = g ++ e_heap e0;
  r_corrs : e_corrs e1 = map (shc g) (e_corrs e0);
  r_en : e_enabled e1 = e_enabled e0;
  r_out : e_out e1 = map (sh g) (e_out e0);
  r_cov : e_rot_cov e1 = e_rot_cov e0 /\ e_vel_cov e1 = e_vel_cov e0 /\ e_pos_cov e1 = e_pos_cov e0;
  r_on : e_enabled e0 = true -> e_state e1 = sh g (e_state e0) /\ e_prop e1 = e_prop e0;
  r_off : e_enabled e0 = false -> sslip (e_state e1) = sslip (e_state e0) /\ exists ip0 ip1, e_prop e0 = Some ip0 /\ e_prop e1 = Some ip1 /\ no_prev ip1 = no_prev ip0 }.

Ltac est_cbn := cbn [e_set e_set_prop e_set_corrs e_set_out e_log e_state e_heap e_prop e_corrs e_enabled e_out e_logger e_logq e_pending e_lastpub e_rate e_lines e_names e_count e_files e_opened e_rot_cov e_vel_cov e_pos_cov e_slip] in *.

Lemma no_prev_eq ip0 ip1 : no_prev ip1 = no_prev ip0 -> exists p, ip1 = match p with Some m => set_prev ip0 m | None => no_prev ip0 end.
Proof.
  intros H. exists (ip_prev ip1). destruct ip0, ip1; cbn in *. injection H. intros; subst. destruct ip_prev0; reflexivity.
Qed.
Lemma spin_sh g : forall cs s l, spin_all (map (shc g) cs) (sh g s) l = rmap (fun '(cs, s) => (map (shc g) cs, sh g s)) (spin_all cs s l).
Proof.
  assert (forall sched c s, vel_spin c (sh g s) sched = rmap (fun '(c, s) => (c, sh g s)) (vel_spin c s sched)) as HV.
  { assert (forall c s a, vel_initialize c (sh g s) a = rmap (fun '(b, c, s) => (b, c, sh g s)) (vel_initialize c s a)) as HI.
    { intros c s a. unfold vel_initialize. destruct (vc_queue c ++ a); [reflexivity|]. step_same. unfold set_velocity. change (sX (sh g s)) with (sX s).
      destruct (cput (sX s) 0 3 _); reflexivity. }
    induction sched as [|x xs IH]; intros c s; cbn [vel_spin]; rewrite HI; destruct (vel_initialize c s _) as [[[b c1] s1]|]; cbn [rmap bind]; try reflexivity; destruct b; try reflexivity.
    apply IH. }
  assert (forall sched c s, leg_spin (shl g c) (sh g s) sched = rmap (fun '(c, s) => (shl g c, sh g s)) (leg_spin c s sched)) as HL.
  { assert (forall c s a, leg_initialize (shl g c) (sh g s) a = rmap (fun '(b, c, s) => (b, shl g c, sh g s)) (leg_initialize c s a)) as HI.
    { intros c s a. unfold leg_initialize. change (lc_queue (shl g c)) with (lc_queue c). destruct (lc_queue c ++ a); [reflexivity|]. step_same. step_same. unfold set_velocity. change (sX (sh g s)) with (sX s).
      destruct (cput (sX s) 0 3 _); reflexivity. }
    induction sched as [|x xs IH]; intros c s; cbn [leg_spin]; rewrite HI; destruct (leg_initialize c s _) as [[[b c1] s1]|]; cbn [rmap bind]; try reflexivity; destruct b; try reflexivity.
    apply IH. }
  induction cs as [|c cs IH]; intros s l; [reflexivity|]. cbn [map spin_all].
  assert (corr_spin (shc g c) (sh g s) (hd_arr l) = rmap (fun '(c, s) => (shc g c, sh g s)) (corr_spin c s (hd_arr l))) as ->.
  { destruct c as [c|c]; cbn [shc corr_spin].
    - rewrite HV. destruct (vel_spin c s _) as [[c1 s1]|]; reflexivity.
    - rewrite HL. destruct (leg_spin c s _) as [[c1 s1]|]; reflexivity. }
  destruct (corr_spin c s (hd_arr l)) as [[c1 s1]|]; cbn [rmap bind]; [|reflexivity]. rewrite IH. destruct (spin_all cs s1 (tl_arr l)) as [[cs2 s2]|]; reflexivity.
Qed.
Lemma deliver_sh g : forall cs l, deliver_all (map (shc g) cs) l = map (shc g) (deliver_all cs l).
Proof. induction cs as [|[c|c] cs IH]; intros l; cbn [map deliver_all]; [reflexivity| |]; rewrite IH; reflexivity. Qed.
Lemma upd_sh g v l : forall i cs, upd_nth (map (shc g) cs) i (fun c => push_corr c v l) = map (shc g) (upd_nth cs i (fun c => push_corr c v l)).
Proof. induction i as [|i IH]; intros [|[c|c] cs]; cbn [map upd_nth]; try reflexivity; rewrite IH; reflexivity. Qed.
Lemma clear_sh g : forall cs, map corr_clear (map (shc g) cs) = map (shc g) (map corr_clear cs).
Proof. intros cs. rewrite !map_map. apply map_ext. intros [c|c]; reflexivity. Qed.
Lemma sh_blank g s : scmap s = repeat None 5 -> sh g s = s.
Proof. intros H. unfold sh. destruct s; cbn in *; subst; reflexivity. Qed.

(** what the next step may do *)
Definition sim (g : heap) (x0 x1 : res est) : Prop :=
  match x0, x1 with Ok e0, Ok e1 => rel g e0 e1 | Fail a, Fail b => a = b | _, _ => False end.

Lemma step_rel g fut e0 e1 o : est_ok (op_imu o ++ fut) e0 -> est_ok (op_imu o ++ fut) e1 -> rel g e0 e1 -> allowed e0 o -> sim g (est_step e0 o) (est_step e1 o).
Proof.
  intros H0 H1 [Rh Rc Re Ro Rv Ron Roff] HA.
  pose proof H0 as [(ip0 & Hip0 & _ & _ & HS0 & _) _ _ Hsl0 _ _ Hoff0 _]. pose proof H1 as [(ip1 & Hip1 & _ & _ & HS1 & _) _ _ Hsl1 _ _ Hoff1 _].
  assert (no_prev ip1 = no_prev ip0 /\ (e_enabled e0 = true -> ip1 = ip0)) as [EP EPon].
  { destruct (e_enabled e0) eqn:E; [destruct (Ron eq_refl) as [_ Q]; rewrite Hip0, Hip1 in Q; injection Q as ->; auto|].
    destruct (Roff eq_refl) as (_ & x & y & A & B & C). rewrite Hip0 in A. rewrite Hip1 in B. injection A as <-. injection B as <-. split; [exact C|discriminate]. }
  destruct o; cbn [op_imu app] in *.
  - cbn [est_step]. rewrite Hip0, Hip1. cbn [of_opt bind sim]. constructor; est_cbn; auto.
    + intros E. destruct (Ron E) as [S _]. rewrite (EPon E). auto.
    + intros E. destruct (Roff E) as (S & _). split; [exact S|]. do 2 eexists. split; [reflexivity|]. split; [reflexivity|].
      destruct (no_prev_eq _ _ EP) as [[p|] ->]; reflexivity.
  - cbn [est_step sim]. constructor; est_cbn; auto. rewrite Rc. apply upd_sh.
  - cbn [est_step sim]. constructor; est_cbn; auto. rewrite Rc. apply upd_sh.
  - (* InitBias *) destruct HA as [E _]. cbn [est_step]. unfold InitBias. rewrite Hip0, Hip1. cbn [of_opt bind].
    assert (match InitImuBias ip0, InitImuBias ip1 with Ok a, Ok b => no_prev b = no_prev a | Fail a, Fail b => a = b | _, _ => False end) as HB.
    { destruct (no_prev_eq _ _ EP) as [[p|] ->]; unfold InitImuBias; cbn [ip_static set_prev no_prev ip_init_size ip_vec ip_queue]; (destruct (negb (ip_static ip0)); [reflexivity|]);
        (destruct (size_lt _ _); [destruct (ip_queue ip0) eqn:Eq; [try reflexivity; cbn; rewrite ?Eq; reflexivity|reflexivity]|destruct (check _ _); reflexivity]). }
    destruct (InitImuBias ip0) as [a|], (InitImuBias ip1) as [b|]; cbn [bind sim]; auto. constructor; est_cbn; auto; [congruence|].
    intros _. destruct (Roff E) as (S & _). split; [exact S|]. eauto.
  - (* InitState *) destruct HA as [E _]. destruct (Hoff0 E) as [B0 _]. assert (e_enabled e1 = false) as E1 by congruence. destruct (Hoff1 E1) as [B1 _]. destruct (Roff E) as (S & _).
    assert (forall ip (e : est), imu_stream (ip_queue ip ++ fut) -> forall m, hd_error (ip_queue ip) = Some m -> SO3 (init_rot ip m)) as HR.
    { intros ip _ HS m Hm. apply unit_rot. destruct (ip_queue ip) as [|x q]; [discriminate|]. injection Hm as ->. destruct HS as [HS _]. cbn in HS. inversion HS; auto. }
    cbn [est_step]. rewrite (InitState_eq e0 l ip0 Hip0 B0 (HR ip0 e0 HS0)), (InitState_eq e1 l ip1 Hip1 B1 (HR ip1 e1 HS1)).
    assert (ip_queue ip1 = ip_queue ip0) as -> by (exact (f_equal ip_queue EP)).
    destruct (ip_queue ip0) as [|m q] eqn:Eq.
    + cbn [sim]. constructor; est_cbn; auto; try congruence. { rewrite Rc. apply deliver_sh. } intros _. split; [exact S|]. eauto.
    + assert (init_state 2 ip1 m (e_state e1) = sh g (init_state 2 ip0 m (e_state e0))) as ->.
      { rewrite sh_blank by (cbn [init_state scmap]; apply B0). destruct B0, B1. unfold init_state, init_rot. rewrite bl_type, bl_X, bl_T, bl_P, bl_map, bl_Q, bl_type0, bl_X0, bl_T0, bl_P0, bl_map0, bl_Q0, S.
        destruct (no_prev_eq _ _ EP) as [[p|] ->]; reflexivity. }
      rewrite Rc, spin_sh. destruct (spin_all (e_corrs e0) (init_state 2 ip0 m (e_state e0)) l) as [[cs s]|]; cbn [rmap bind]; [|reflexivity]. cbv zeta.
      assert (start_state e1 ip1 (sh g s) = sh g (start_state e0 ip0 s)) as ->.
      { unfold start_state. destruct Rv as (-> & -> & ->). destruct (no_prev_eq _ _ EP) as [[p|] ->]; reflexivity. }
      cbn [sim]. constructor; est_cbn; auto; try discriminate. { rewrite Ro, map_app. reflexivity. }
      intros _. split; [reflexivity|]. destruct (no_prev_eq _ _ EP) as [[p|] ->]; reflexivity.
  - (* RunOnce *) cbn [allowed] in HA. destruct (Ron HA) as [S P]. cbn [est_step]. unfold RunOnce. rewrite Hip1, Hip0, (EPon HA), S. cbn [of_opt bind]. rewrite Propagate_sh.
    destruct (Propagate ip0 (e_state e0)) as [[[b ip'] s']|]; cbn [rmap bind sim]; [|reflexivity]. rewrite Rc, Rh, correct_all_sh.
    destruct (correct_all (e_corrs e0) (e_heap e0) s' l) as [[[[b2 cs] h] s2]|]; cbn [rmap bind sim]; [|reflexivity].
    rewrite Hsl0, Hsl1. destruct (b || b2); cbn [bind sim]; constructor; est_cbn; auto; try congruence. rewrite Ro, map_app. reflexivity.
  - (* Clear *) cbn [est_step]. unfold Clear. rewrite Hip0, Hip1. cbn [of_opt bind].
    assert (rel g (e_set e0 (RS_clear (e_state e0)) (e_heap e0) (Some (IP_clear ip0)) (map corr_clear (e_corrs e0)) false [] [])
              (e_set e1 (RS_clear (e_state e1)) (e_heap e1) (Some (IP_clear ip1)) (map corr_clear (e_corrs e1)) false [] [])) as HR.
    { constructor; est_cbn; auto; try discriminate. { rewrite Rc. apply clear_sh. } intros _. split.
      - cbn. destruct (e_enabled e0) eqn:E; [destruct (Ron eq_refl) as [-> _]; reflexivity|apply (Roff eq_refl)].
      - do 2 eexists. split; [reflexivity|]. split; [reflexivity|]. destruct (no_prev_eq _ _ EP) as [[p|] ->]; reflexivity. }
    cbn [e_set e_logger e_names e_count]. destruct (e_logger e0), (e_logger e1); try (destruct (e_names e0)); try (destruct (e_names e1)); cbn [sim]; destruct HR; constructor; auto.
  - cbn [est_step sim]. constructor; est_cbn; auto. rewrite Ro. destruct (e_out e0); reflexivity.
  - cbn [est_step sim]. unfold LogPop. destruct (e_pending e0), (e_pending e1), (e_logq e0), (e_logq e1); constructor; est_cbn; auto.
  - destruct (step_safe fut e0 OLogWrite H0 HA) as [(e0' & E0 & _)|[_ (l & L & _)]]; [|discriminate].
    destruct (step_safe fut e1 OLogWrite H1 I) as [(e1' & E1 & _)|[_ (l & L & _)]]; [|discriminate]. rewrite E0, E1. cbn [sim]. cbn [est_step] in E0, E1.
    assert (forall e e', LogWrite e = Ok e' -> exists q p a ls, e' = e_log e q p a ls) as HW.
    { clear. intros e e' E. unfold LogWrite in E. destruct (e_pending e) as [x|]; [|injection E as <-; exists (e_logq e), (e_pending e), (e_lastpub e), (e_lines e); destruct e; reflexivity].
      apply bind_inv in E. destruct E as (t & _ & E). destruct (_ && _); [|injection E as <-; eauto 10].
      repeat (apply bind_inv in E; destruct E as (? & _ & E)). injection E as <-. eauto 10. }
    destruct (HW _ _ E0) as (? & ? & ? & ? & ->). destruct (HW _ _ E1) as (? & ? & ? & ? & ->). constructor; est_cbn; auto.
Qed.
Lemma rel_allowed g e0 e1 o : rel g e0 e1 -> allowed e1 o -> allowed e0 o.
Proof.
  intros [Rh Rc Re Ro Rv Ron Roff]. destruct o; cbn [allowed]; auto; unfold BiasInitialized; rewrite Re; auto; intros [H1 H2]; (split; [exact H1|]);
    destruct (Roff H1) as (_ & a & b & -> & E & EP); rewrite E in H2; cbn in *; rewrite <- (f_equal ip_bias_init EP : ip_bias_init b = ip_bias_init a); exact H2.
Qed.
Lemma run_rel g : forall os e0 e1, est_ok (imus os) e0 -> est_ok (imus os) e1 -> rel g e0 e1 -> protocol e1 os ->
  sim g (est_run e0 os) (est_run e1 os) /\ published any_op e1 os = map (sh g) (published any_op e0 os).
Proof.
  induction os as [|o os IH]; intros e0 e1 H0 H1 R P; [cbn; auto|]. rewrite imus_cons in H0, H1. destruct P as [HA P].
  pose proof (rel_allowed _ _ _ _ R HA) as HA0. pose proof (step_rel g (imus os) e0 e1 o H0 H1 R HA0) as S. cbn [published est_run foldM].
  destruct (step_safe _ _ _ H0 HA0) as [(e0' & E0 & K0)|[E0 _]]; destruct (step_safe _ _ _ H1 HA) as [(e1' & E1 & K1)|[E1 _]]; rewrite E0, E1 in *; cbn [sim bind] in *; try contradiction.
  - destruct (IH e0' e1' K0 K1 S (P _ eq_refl)) as (I2 & I3). split; [exact I2|]. rewrite map_app, I3. f_equal. cbn [any_op].
    rewrite (r_out _ _ _ S), (r_out _ _ _ R), map_length, skipn_map. reflexivity.
  - auto.
Qed.
