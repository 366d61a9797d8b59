(** Proofs: C88, the whole estimator commutes with a mirror. *)
From Coq Require Import Reals ZArith List Bool Arith Lia Lra FunctionalExtensionality.
From Verif Require Import Res Vec3 Mat LieGroup MatInv Psd Spec SpecState LieSO3 LieSEK LieThms RobotState StateProofs StateHist StateMisc Inekf SpecFilter
  InekfProofs InekfThms Imu Propagation SpecProp Blk PsdBlk PropagationProofs PropagationThms PropagationLog ImuThms ImuRest Queue VelCorr LegCorr SpecCorr ImuNeg VelThms LegThms LegAdd LegLoop LegUpd LegHist CorrInno
  Quat QuatThms Estimator SpecEst EstInv EstSafe EstPub EstHist EstTime ConvLeg ConvFilter SpecConv ConvEst YawFilter YawSteps YawEst YawRun TimeShift SpecSnap SpecMirror Mirror MirrorStep MirrorLeg.
Import ListNotations.
Local Open Scope R_scope.

Section M.
Variable p : plane.
Definition mcorr (c : corr_obj) : corr_obj := match c with CVel c => CVel (mvc p c) | CLeg c => CLeg (mlc p c) end.

(** ** corrections *)
Lemma vel_Correct_mir K c s sched : wfp K s ->
  vel_Correct (mvc p c) (mirrored p s) (map (map (mir_vel p)) sched) = rmap (fun '(b, c, s) => (b, mvc p c, mirrored p s)) (vel_Correct c s sched).
Proof.
  intros W. unfold vel_Correct. cbv zeta. cbn [vc_queue mvc]. rewrite hd_map, tl_map, <- map_app.
  assert (forall q bs, vc_set_queue (mvc p c) (map (mir_vel p) q ++ concat (map (map (mir_vel p)) bs)) = mvc p (vc_set_queue c (q ++ concat bs))) as HQ.
  { intros q bs. rewrite concat_maps, <- map_app. reflexivity. }
  destruct (vc_queue c ++ hd_batch sched) as [|m q]; cbn [map].
  { specialize (HQ []). cbn [map] in HQ. cbn [rmap]. rewrite HQ. reflexivity. }
  change (get_propagate_time (mirrored p s)) with (get_propagate_time s). destruct (get_propagate_time s) as [tp|]; [|reflexivity]. cbn [bind].
  change (vm_t (mir_vel p m)) with (vm_t m). change (vc_thr (mvc p c)) with (vc_thr c).
  destruct (not_past tp (vm_t m)); [cbn [rmap]; change (mir_vel p m :: map (mir_vel p) q) with (map (mir_vel p) (m :: q)); rewrite HQ; reflexivity|].
  destruct (too_old (vc_thr c) tp (vm_t m)).
  - rewrite (drain_map (mir_vel p) (fun m => too_old (vc_thr c) tp (vm_t m)) (fun m => too_old (vc_thr c) tp (vm_t m))) by reflexivity.
    destruct (drain _ q (tl_batch sched)) as [[r q'] bs]. destruct r as [m'|]; cbn [option_map].
    + rewrite (vel_update_mir p K) by auto. destruct (vel_update c m' s); cbn [rmap bind]; [rewrite HQ|]; reflexivity.
    + cbn [rmap]. rewrite HQ. reflexivity.
  - rewrite (vel_update_mir p K) by auto. destruct (vel_update c m s); cbn [rmap bind]; [rewrite HQ|]; reflexivity.
Qed.
Lemma hd_mir l : hd_arr (map (mir_arr p) l) = mir_arr p (hd_arr l). Proof. destruct l; reflexivity. Qed.
Lemma tl_mir l : tl_arr (map (mir_arr p) l) = map (mir_arr p) (tl_arr l). Proof. destruct l; reflexivity. Qed.
Lemma correct_all_mir : forall cs ctx h s l tp t, (n_leg cs + n_ctx ctx <= 1)%nat -> Forall corr_noise cs ->
  core (pick ctx cs) h s -> stprop s = Some tp -> st s = Some t ->
  correct_all (map mcorr cs) h (mirrored p s) (map (mir_arr p) l) = rmap (fun '(b, cs, h, s) => (b, map mcorr cs, h, mirrored p s)) (correct_all cs h s l).
Proof.
  induction cs as [|c cs IH]; intros ctx h s l tp t Hl HN HC Ht Hs; cbn [correct_all map]; [reflexivity|]. rewrite hd_mir, tl_mir.
  inversion HN as [|x y HNc HNs]; subst. pose proof HC as (ids & C & HP & HQ). destruct c as [c|c]; cbn [corr_Correct mcorr a_vel a_leg mir_arr].
  - rewrite (vel_Correct_mir (2 + length ids) c s) by (eapply contacts_wfp; eauto).
    destruct (vel_step _ h c s (a_vel (hd_arr l)) tp t HC HNc Ht Hs) as (b & c' & s1 & t1 & E & C1 & N1 & T1 & S1). rewrite E. cbn [bind rmap].
    rewrite (IH ctx h s1 (tl_arr l) tp t1); auto. destruct (correct_all cs h s1 (tl_arr l)) as [[[[b2 cs2] h2] s2]|]; reflexivity.
  - assert (ctx = None /\ n_leg cs = 0%nat) as [-> L0].
    { unfold n_leg in Hl. cbn in Hl. destruct ctx; cbn in Hl; [lia|]. split; [reflexivity|]. unfold n_leg. lia. }
    cbn [pick leg_of] in HC, C. rewrite (leg_Correct_mir p c h s ids) by auto.
    destruct (leg_step c h s (a_leg (hd_arr l)) tp t HC HNc Ht Hs) as (b & c' & h1 & s1 & t1 & E & C1 & N1 & T1 & S1). rewrite E. cbn [bind rmap].
    rewrite (IH (Some c') h1 s1 (tl_arr l) tp t1); auto; [|rewrite L0; cbn; lia].
    destruct (correct_all cs h1 s1 (tl_arr l)) as [[[[b2 cs2] h2] s2]|]; reflexivity.
Qed.

(** ** initialisation *)
Lemma set_X_mir K s X : SEK K (sX s) -> mirrored p (set_X s X) = set_X (mirrored p s) (mirX p X). Proof. reflexivity. Qed.
Lemma put_vel_mir K s v t : wfp K s -> put_vel (mirrored p s) (pol p v) t = mirrored p (put_vel s v t).
Proof.
  intros W. pose proof (mir_wfp p K s W) as W'. pose proof (put_vel_X K _ (pol p v) t W') as E1. pose proof (put_vel_X K s v t W) as E2.
  assert (sX (put_vel (mirrored p s) (pol p v) t) = mirX p (sX (put_vel s v t))) as E.
  { rewrite E1, E2. change (sX (mirrored p s)) with (mirX p (sX s)). rewrite mirX_sek, (mirX_rot p K) by apply W. apply aff_ext. intros k Hk. destruct (Nat.eqb_spec k 0); [reflexivity|]. apply (mirX_col p K); auto. apply W. }
  change (set_time (set_X (mirrored p s) (sX (put_vel (mirrored p s) (pol p v) t))) t = mirrored p (put_vel s v t)). rewrite E. reflexivity.
Qed.
Lemma vel_initialize_mir K c s arr : wfp K s -> vel_initialize (mvc p c) (mirrored p s) (map (mir_vel p) arr) = rmap (fun '(b, c, s) => (b, mvc p c, mirrored p s)) (vel_initialize c s arr) /\
  forall b c1 s1, vel_initialize c s arr = Ok (b, c1, s1) -> wfp K s1.
Proof.
  intros W. destruct (vc_queue c ++ arr) as [|x q] eqn:Eq.
  - unfold vel_initialize. rewrite Eq. cbn [vc_queue mvc]. rewrite <- map_app, Eq. split; [reflexivity|]. intros b c1 s1 [= <- <- <-]. exact W.
  - assert (vc_queue (mvc p c) ++ map (mir_vel p) arr = mir_vel p x :: map (mir_vel p) q) as Eq' by (cbn [vc_queue mvc]; rewrite <- map_app, Eq; reflexivity).
    rewrite (vel_init_ok K c s arr x q W Eq), (vel_init_ok K _ _ _ _ _ (mir_wfp p K s W) Eq'). cbn [rmap]. split.
    + change (mir_vel p x :: map (mir_vel p) q) with (map (mir_vel p) (x :: q)). rewrite last_map. cbn [vm_v vm_t mir_vel].
      change (sX (mirrored p s)) with (mirX p (sX s)). rewrite (mirX_rot p K), mflip_mv by apply W. rewrite (put_vel_mir K) by auto. reflexivity.
    + intros b c1 s1 [= <- <- <-]. apply put_vel_wfp; auto.
Qed.
Lemma vel_spin_mir K : forall sched c s, wfp K s -> vel_spin (mvc p c) (mirrored p s) (map (map (mir_vel p)) sched) = rmap (fun '(c, s) => (mvc p c, mirrored p s)) (vel_spin c s sched) /\
  forall c1 s1, vel_spin c s sched = Ok (c1, s1) -> wfp K s1.
Proof.
  assert (forall c bs, vc_set_queue (mvc p c) (vc_queue (mvc p c) ++ concat (map (map (mir_vel p)) bs)) = mvc p (vc_set_queue c (vc_queue c ++ concat bs))) as HQ.
  { intros c bs. cbn [vc_queue mvc]. rewrite concat_maps, <- map_app. reflexivity. }
  induction sched as [|b bs IH]; intros c s W; cbn [vel_spin map].
  - destruct (vel_initialize_mir K c s [] W) as [E1 E2]. cbn [map] in E1. change (@hd_batch vmeas []) with (@nil vmeas). rewrite E1. destruct (vel_initialize c s []) as [[[b0 c1] s1]|]; cbn [rmap bind]; [|split; [reflexivity|discriminate]]. specialize (E2 _ _ _ eq_refl).
    destruct b0; [|split; [reflexivity|discriminate]]. split; [|intros c2 s2 [= <- <-]; exact E2]. change (@tl_batch vmeas []) with (map (map (mir_vel p)) (tl_batch [])) at 1. rewrite HQ. reflexivity.
  - change (map (mir_vel p) b :: map (map (mir_vel p)) bs) with (map (map (mir_vel p)) (b :: bs)). rewrite hd_map, tl_map. destruct (vel_initialize_mir K c s (hd_batch (b :: bs)) W) as [E1 E2]. rewrite E1.
    destruct (vel_initialize c s (hd_batch (b :: bs))) as [[[b0 c1] s1]|]; cbn [rmap bind]; [|split; [reflexivity|discriminate]]. specialize (E2 _ _ _ eq_refl).
    destruct b0; [|apply IH; exact E2]. split; [|intros c2 s2 [= <- <-]; exact E2]. rewrite HQ. reflexivity.
Qed.
Lemma axi_axi v : axi p (axi p v) = v. Proof. destruct p, v; unfold axi, vneg, pol, sgn; ring3. Qed.
Lemma leg_initialize_mir K c s arr : wfp K s -> leg_initialize (mlc p c) (mirrored p s) (map (mir_leg p) arr) = rmap (fun '(b, c, s) => (b, mlc p c, mirrored p s)) (leg_initialize c s arr) /\
  forall b c1 s1, leg_initialize c s arr = Ok (b, c1, s1) -> wfp K s1.
Proof.
  intros W. destruct (lc_queue c ++ arr) as [|x q] eqn:Eq.
  - unfold leg_initialize. rewrite Eq. cbn [lc_queue mlc]. rewrite <- map_app, Eq. split; [reflexivity|]. intros b c1 s1 [= <- <- <-]. exact W.
  - assert (lc_queue (mlc p c) ++ map (mir_leg p) arr = mir_leg p x :: map (mir_leg p) q) as Eq' by (cbn [lc_queue mlc]; rewrite <- map_app, Eq; reflexivity).
    destruct (sbav s) as [w|] eqn:Ew.
    + assert (sbav (mirrored p s) = Some (axi p w)) as Ew' by (cbn [sbav mirrored]; rewrite Ew; reflexivity).
      rewrite (leg_init_ok K c s arr x q w W Ew Eq), (leg_init_ok K _ _ _ _ _ _ (mir_wfp p K s W) Ew' Eq'). cbn [rmap]. split.
      * change (mir_leg p x :: map (mir_leg p) q) with (map (mir_leg p) (x :: q)). rewrite last_map. cbn [lm_initv lm_t mir_leg].
        change (sX (mirrored p s)) with (mirX p (sX s)). rewrite (mirX_rot p K), axi_axi, mflip_mv by apply W. rewrite (put_vel_mir K) by auto. reflexivity.
      * intros b c1 s1 [= <- <- <-]. apply put_vel_wfp; auto.
    + unfold leg_initialize. rewrite Eq, Eq'. unfold get_body_angular_velocity. cbn [sbav mirrored]. rewrite Ew. cbn. split; [reflexivity|discriminate].
Qed.
Lemma leg_spin_mir K : forall sched c s, wfp K s -> leg_spin (mlc p c) (mirrored p s) (map (map (mir_leg p)) sched) = rmap (fun '(c, s) => (mlc p c, mirrored p s)) (leg_spin c s sched) /\
  forall c1 s1, leg_spin c s sched = Ok (c1, s1) -> wfp K s1.
Proof.
  assert (forall c bs, lc_set_queue (mlc p c) (lc_queue (mlc p c) ++ concat (map (map (mir_leg p)) bs)) = mlc p (lc_set_queue c (lc_queue c ++ concat bs))) as HQ.
  { intros c bs. cbn [lc_queue mlc]. rewrite concat_maps, <- map_app. reflexivity. }
  induction sched as [|b bs IH]; intros c s W; cbn [leg_spin map].
  - destruct (leg_initialize_mir K c s [] W) as [E1 E2]. cbn [map] in E1. change (@hd_batch lmeas []) with (@nil lmeas). rewrite E1. destruct (leg_initialize c s []) as [[[b0 c1] s1]|]; cbn [rmap bind]; [|split; [reflexivity|discriminate]]. specialize (E2 _ _ _ eq_refl).
    destruct b0; [|split; [reflexivity|discriminate]]. split; [|intros c2 s2 [= <- <-]; exact E2]. change (@tl_batch lmeas []) with (map (map (mir_leg p)) (tl_batch [])) at 1. rewrite HQ. reflexivity.
  - change (map (mir_leg p) b :: map (map (mir_leg p)) bs) with (map (map (mir_leg p)) (b :: bs)). rewrite hd_map, tl_map. destruct (leg_initialize_mir K c s (hd_batch (b :: bs)) W) as [E1 E2]. rewrite E1.
    destruct (leg_initialize c s (hd_batch (b :: bs))) as [[[b0 c1] s1]|]; cbn [rmap bind]; [|split; [reflexivity|discriminate]]. specialize (E2 _ _ _ eq_refl).
    destruct b0; [|apply IH; exact E2]. split; [|intros c2 s2 [= <- <-]; exact E2]. rewrite HQ. reflexivity.
Qed.
Lemma spin_all_mir K : forall cs s l, wfp K s -> spin_all (map mcorr cs) (mirrored p s) (map (mir_arr p) l) = rmap (fun '(cs, s) => (map mcorr cs, mirrored p s)) (spin_all cs s l).
Proof.
  induction cs as [|c cs IH]; intros s l W; cbn [spin_all map]; [reflexivity|]. rewrite hd_mir, tl_mir. destruct c as [c|c]; cbn [corr_spin mcorr a_vel a_leg mir_arr].
  - destruct (vel_spin_mir K (a_vel (hd_arr l)) c s W) as [E1 E2]. rewrite E1. destruct (vel_spin c s (a_vel (hd_arr l))) as [[c1 s1]|]; cbn [rmap bind]; [|reflexivity].
    rewrite (IH s1 (tl_arr l) (E2 _ _ eq_refl)). destruct (spin_all cs s1 (tl_arr l)) as [[cs2 s2]|]; reflexivity.
  - destruct (leg_spin_mir K (a_leg (hd_arr l)) c s W) as [E1 E2]. rewrite E1. destruct (leg_spin c s (a_leg (hd_arr l))) as [[c1 s1]|]; cbn [rmap bind]; [|reflexivity].
    rewrite (IH s1 (tl_arr l) (E2 _ _ eq_refl)). destruct (spin_all cs s1 (tl_arr l)) as [[cs2 s2]|]; reflexivity.
Qed.
Lemma push_mir c v l : push_corr (mcorr c) (map (mir_vel p) v) (map (mir_leg p) l) = mcorr (push_corr c v l).
Proof. destruct c as [c|c]; cbn [push_corr mcorr]; f_equal; cbn [vc_queue mvc lc_queue mlc]; rewrite <- map_app; reflexivity. Qed.
Lemma deliver_mir : forall cs l, deliver_all (map mcorr cs) (map (mir_arr p) l) = map mcorr (deliver_all cs l).
Proof.
  induction cs as [|c cs IH]; intros l; [reflexivity|]. cbn [map deliver_all].
  rewrite hd_mir, tl_mir, IH. cbn [a_vel a_leg mir_arr]. rewrite !concat_maps, push_mir. reflexivity.
Qed.
Lemma upd_mir v l : forall i cs, upd_nth (map mcorr cs) i (fun x => push_corr x (map (mir_vel p) v) (map (mir_leg p) l)) = map mcorr (upd_nth cs i (fun x => push_corr x v l)).
Proof.
  induction i as [|i IH]; intros [|c cs]; try reflexivity; cbn [map upd_nth]; [rewrite push_mir|rewrite IH]; reflexivity.
Qed.

(** ** the propagation *)
Lemma tRM_flip q : toRotationMatrix (qflip p q) = mflip p (toRotationMatrix q).
Proof. destruct q as [w x y z], p; unfold toRotationMatrix, qflip, axi, pol, vneg, mflip, sgn; cbn [qw qx qy qz v0 v1 v2]; ring3. Qed.
Lemma qnorm_flip q : qnorm2 (qflip p q) = qnorm2 q.
Proof. destruct q as [w x y z], p; unfold qnorm2, qflip, axi, pol, vneg, sgn; cbn [qw qx qy qz v0 v1 v2]; ring. Qed.
Lemma calib_mir ip m : calib_sample (mir_ip p ip) (mir_imu p m) = (axi p (fst (calib_sample ip m)), pol p (snd (calib_sample ip m))).
Proof.
  unfold calib_sample. cbv zeta. cbn [ip_Rib ip_t ip_use_ori mir_ip i_w i_a i_q mir_imu fst snd]. rewrite tRM_flip, mflip_mv, mflip_mva, mflip_mul, !cross_ap, pol_sub. f_equal.
  assert ((if ip_use_ori ip then mflip p (ip_Rib ip *m toRotationMatrix (i_q m)) else mid) = mflip p (if ip_use_ori ip then ip_Rib ip *m toRotationMatrix (i_q m) else mid)) as -> by (destruct (ip_use_ori ip); [reflexivity|symmetry; apply mflip_id]).
  set (A := if ip_use_ori ip then _ else _). rewrite mflip_mv, mflip_T. rewrite <- (pol_g p) at 1. rewrite pol_add, mflip_mv. reflexivity.
Qed.
Lemma sum_mir l : (fold_left (fun a v => a +v fst v) (map (fun v => (axi p (fst v), pol p (snd v))) l) vzero = axi p (fold_left (fun a v => a +v fst v) l vzero)) /\
  fold_left (fun a v => a +v snd v) (map (fun v => (axi p (fst v), pol p (snd v))) l) vzero = pol p (fold_left (fun a v => a +v snd v) l vzero).
Proof.
  assert (forall l u, fold_left (fun a v => a +v fst v) (map (fun v : V3 * V3 => (axi p (fst v), pol p (snd v))) l) (axi p u) = axi p (fold_left (fun a v => a +v fst v) l u)) as H1.
  { induction l0 as [|x l0 IH]; intros u; [reflexivity|]. cbn [map fold_left fst]. rewrite axi_add. apply IH. }
  assert (forall l u, fold_left (fun a v => a +v snd v) (map (fun v : V3 * V3 => (axi p (fst v), pol p (snd v))) l) (pol p u) = pol p (fold_left (fun a v => a +v snd v) l u)) as H2.
  { induction l0 as [|x l0 IH]; intros u; [reflexivity|]. cbn [map fold_left snd]. rewrite pol_add. apply IH. }
  split; [rewrite <- H1, axi_0|rewrite <- H2, pol_0]; reflexivity.
Qed.
Lemma InitImuBias_mir ip : InitImuBias (mir_ip p ip) = rmap (mir_ip p) (InitImuBias ip).
Proof.
  unfold InitImuBias. cbv zeta. cbn [ip_static mir_ip ip_vec ip_init_size ip_queue ip_bg0 ip_ba0]. destruct (negb (ip_static ip)); [reflexivity|]. rewrite map_length. destruct (size_lt _ _).
  - destruct (ip_queue ip) as [|m l]; [reflexivity|]. cbn [map rmap]. rewrite calib_mir. f_equal. unfold set_prev, set_vec, set_queue, mir_ip. cbn. rewrite map_app. reflexivity.
  - destruct (check _ _); [|reflexivity]. cbn [bind rmap]. destruct (sum_mir (ip_vec ip)) as [-> ->]. rewrite axi_scl, pol_scl. reflexivity.
Qed.
Lemma signs_bdiag K f : signs (Dg p K) (Dg p K) (bdiag (3 + K) f) = bdiag (3 + K) (fun i => mflip p (f i)).
Proof.
  unfold bdiag. rewrite signs_blk. apply blk_ext. intros i j Hi Hj. destruct (Nat.eqb_spec i j) as [->|]; [rewrite eps2, ms_1; reflexivity|rewrite mflip_0; apply ms_0].
Qed.
Lemma start_mir e e' ip s : sQc s = sQc s -> e_rot_cov e' = e_rot_cov e -> e_vel_cov e' = e_vel_cov e -> e_pos_cov e' = e_pos_cov e -> nr (sP s) = 15%nat ->
  start_state e' (mir_ip p ip) (mirrored p s) = mirrored p (start_state e ip s).
Proof.
  intros _ E1 E2 E3 HP. unfold start_state. rewrite E1, E2, E3. cbn [ip_gyro_bias_cov ip_accel_bias_cov mir_ip].
  set (B := bdiag 5 (init_blocks (e_rot_cov e) (e_vel_cov e) (e_pos_cov e) (ip_gyro_bias_cov ip) (ip_accel_bias_cov ip))).
  assert (bdiag 5 (init_blocks (e_rot_cov e) (e_vel_cov e) (e_pos_cov e) (mflip p (ip_gyro_bias_cov ip)) (mflip p (ip_accel_bias_cov ip))) = signs (Dg p 2) (Dg p 2) B) as ->.
  { unfold B. rewrite (signs_bdiag 2). apply bdiag_ext. intros i Hi. destruct i as [|[|[|[|[|i]]]]]; try lia; cbn [init_blocks]; rewrite <- ?mflip_scl, ?mflip_id; reflexivity. }
  reflexivity.
Qed.
Lemma init_mir ip m s s' : blank s -> (s' = s) -> unit_q m -> init_state 2 (mir_ip p ip) (mir_imu p m) s' = mirrored p (init_state 2 ip m s).
Proof.
  intros B -> Hm. unfold init_state, mirrored. cbn [stype sX sTheta sP scmap st stprop sQc sbav sen sslip]. cbn [ip_bg0 ip_ba0 ip_gyro_bias_cov ip_accel_bias_cov ip_enable mir_ip i_t i_w mir_imu option_map]. f_equal.
  - change (signs (sX_sign p) (sX_sign p)) with (mirX p). rewrite mirX_sek.
    assert (init_rot (mir_ip p ip) (mir_imu p m) = mflip p (init_rot ip m)) as ->.
    { unfold init_rot. cbn [ip_use_ori mir_ip i_q mir_imu]. rewrite tRM_flip. destruct (ip_use_ori ip); [reflexivity|symmetry; apply mflip_id]. }
    apply aff_ext. intros k Hk. rewrite (bl_X _ B). destruct k as [|[|k]]; [| |lia]; cbn [Nat.eqb]; [rewrite (proj2 eye_rot_col) by lia|]; symmetry; apply pol_0.
  - rewrite (bl_T _ B). apply mat_ext; try reflexivity. intros i j Hi Hj. change (i < 6)%nat in Hi. change (j < 1)%nat in Hj. assert (j = 0)%nat as -> by lia. rewrite ent_signs by (mdim; lia).
    rewrite !ent_put by (mdim; lia). cbn [nr nc ofV3 mk inwin]. change (nr (ofV3 _)) with 3%nat. change (nc (ofV3 _)) with 1%nat. unfold inwin.
    destruct i as [|[|[|[|[|[|i]]]]]]; try lia; cbn [Nat.leb Nat.ltb Nat.add andb Nat.sub]; rewrite !ent_ofV3 by lia; unfold sT_sign; cbn [Nat.ltb Nat.leb Nat.sub]; rewrite ?vget_pol, ?vget_axi by lia; ring.
  - rewrite (bl_P _ B). set (bg := ip_gyro_bias_cov ip). set (ba := ip_accel_bias_cov ip).
    rewrite <- (signs_eye (Dg p 2) 15) at 1 by apply Dg_sign. rewrite (put_diag_mir p 2 _ 3 bg 9) by (mdim; lia). rewrite (put_diag_mir p 2 _ 4 ba 12) by (mdim; lia). reflexivity.
  - rewrite (bl_Q _ B). symmetry. apply signs_O.
Qed.

(** ** the estimator *)
Definition mir_est (e : est) (L : list log_line) : est :=
  let T := mirrored p in
  mkEst (e_err e) (if e_enabled e then T (e_state e) else e_state e) (e_heap e) (option_map (mir_ip p) (e_prop e)) (map mcorr (e_corrs e)) (e_enabled e)
    (map T (e_out e)) (e_logger e) (map T (e_logq e)) (option_map T (e_pending e)) (e_lastpub e) (e_rate e) L (e_names e)
    (e_count e) (e_files e) (e_opened e) (e_rot_cov e) (e_vel_cov e) (e_pos_cov e) (e_slip e).
Lemma line_mir n f t x : wfp (2 + n) x ->
  exists M ps v bv, get_world_rotation x = Ok M /\ get_world_position x = Ok ps /\ get_world_velocity x = Ok v /\ get_body_velocity x = Ok bv /\
  get_world_rotation (mirrored p x) = Ok (mflip p M) /\ get_world_position (mirrored p x) = Ok (pol p ps) /\ get_world_velocity (mirrored p x) = Ok (pol p v) /\ get_body_velocity (mirrored p x) = Ok (pol p bv) /\
  mirrored_line p (mkLine f t ps (quat_of_mat M) v bv) (mkLine f t (pol p ps) (quat_of_mat (mflip p M)) (pol p v) (pol p bv)).
Proof.
  intros W. pose proof (mir_wfp p _ x W) as W'.
  assert (forall y, wfp (2 + n) y -> get_velocity y = Ok (col (sX y) 0) /\ get_position y = Ok (col (sX y) 1)) as HG.
  { intros y [[WX _ _ _ _] HK _ _ _]. unfold get_velocity, get_position. rewrite !cgetV3_ok; auto; rewrite ?(sek_rows _ _ WX), ?(sek_cols _ _ WX); lia. }
  destruct (HG _ W) as [V1 V2]. destruct (HG _ W') as [V1' V2'].
  unfold get_world_rotation, get_world_position, get_world_velocity, get_body_velocity. rewrite (wp_type _ _ W), (wp_type _ _ W'), V1, V2, V1', V2', (get_rotation_ok _ _ W), (get_rotation_ok _ _ W'). cbn [bind].
  change (sX (mirrored p x)) with (mirX p (sX x)). assert (SEK (2 + n) (sX x)) as HX by apply W. rewrite (mirX_rot p (2 + n)), !(mirX_col p (2 + n)) by (auto; lia).
  do 4 eexists. do 7 (split; [reflexivity|]). split.
  - f_equal. rewrite mflip_T. apply mflip_mv.
  - unfold mirrored_line. cbn. do 5 (split; [reflexivity|]). destruct (thm_quat_of_mat (rot (sX x))) as [_ ->]; [apply HX|]. destruct (thm_quat_of_mat (mflip p (rot (sX x)))) as [_ ->]; [apply mflip_SO3, HX|reflexivity].
Qed.

Lemma step_mirror fut e o L : est_ok (op_imu o ++ fut) e -> allowed e o -> Forall2 (mirrored_line p) (e_lines e) L ->
  match est_step e o with
  | Ok e1 => exists L1, est_step (mir_est e L) (mir_op p o) = Ok (mir_est e1 L1) /\ Forall2 (mirrored_line p) (e_lines e1) L1
  | Fail x => est_step (mir_est e L) (mir_op p o) = Fail x
  end.
Proof.
  intros HE HA HF.
  pose proof HE as [(ip & Hip & HN & HCal & HS & HRun) Hno Hle Hsl Hcov Hon Hoff Hpub].
  destruct o; cbn [op_imu app mir_op] in *.
  - cbn [est_step]. cbn [e_prop mir_est]. rewrite Hip. cbn [option_map of_opt bind]. exists L. split; [|exact HF]. f_equal. unfold mir_est, e_set_prop, e_set. t_cbn. f_equal. unfold set_queue, mir_ip. cbn. rewrite map_app. reflexivity.
  - cbn [est_step]. exists L. split; [|exact HF]. f_equal. pose proof (upd_mir [m] [] i (e_corrs e)) as EU. cbn [map] in EU. unfold mir_est, e_set_corrs, e_set. t_cbn. rewrite EU. reflexivity.
  - cbn [est_step]. exists L. split; [|exact HF]. f_equal. pose proof (upd_mir [] [m] i (e_corrs e)) as EU. cbn [map] in EU. unfold mir_est, e_set_corrs, e_set. t_cbn. rewrite EU. reflexivity.
  - cbn [est_step]. unfold InitBias. cbn [e_prop mir_est]. rewrite Hip. cbn [option_map of_opt bind].
    rewrite InitImuBias_mir. destruct (InitImuBias ip) as [ip'|]; cbn [rmap bind]; [|reflexivity]. exists L. split; [reflexivity|exact HF].
  - (* InitState *) destruct HA as [He _]. destruct (Hoff He) as [B B2]. cbn [est_step].
    assert (forall m, hd_error (ip_queue ip) = Some m -> unit_q m) as Hun.
    { intros m Hm. destruct (ip_queue ip) as [|x l0]; [discriminate|]. injection Hm as ->. destruct HS as [HS _]. cbn in HS. inversion HS; auto. }
    rewrite (InitState_eq e l ip Hip B) by (intros m Hm; apply unit_rot; exact (Hun m Hm)).
    rewrite (InitState_eq (mir_est e L) (map (mir_arr p) l) (mir_ip p ip)); [|cbn [e_prop mir_est]; rewrite Hip; reflexivity|cbn [e_state mir_est]; rewrite He; exact B|].
    2:{ intros m Hm. apply unit_rot. cbn [ip_queue mir_ip] in Hm. destruct (ip_queue ip) as [|x l0]; [discriminate|]. cbn in Hm. injection Hm as <-. unfold unit_q. cbn [i_q mir_imu]. rewrite qnorm_flip. exact (Hun x eq_refl). }
    cbn [ip_queue mir_ip e_state mir_est e_heap e_corrs e_enabled e_out e_logq]. rewrite He. destruct (ip_queue ip) as [|m l0] eqn:Eq; cbn [map].
    + exists L. split; [|exact HF]. rewrite deliver_mir. unfold mir_est, e_set. t_cbn. reflexivity.
    + pose proof (Hun m eq_refl) as Hm. assert (wfp 2 (init_state 2 ip m (e_state e))) as W0 by (apply init_state_wfp; [apply blank_wfp; exact B|apply unit_rot; exact Hm]).
      rewrite (init_mir ip m (e_state e) _ B eq_refl Hm).
      rewrite (spin_all_mir 2 (e_corrs e) (init_state 2 ip m (e_state e)) l W0).
      destruct (spin_all_ok 2 (i_w m) (e_corrs e) (init_state 2 ip m (e_state e)) l W0 eq_refl) as (_ & H2 & _).
      destruct (spin_all (e_corrs e) (init_state 2 ip m (e_state e)) l) as [[cs s]|]; cbn [rmap bind]; [|reflexivity]. cbv zeta.
      destruct (H2 _ _ eq_refl) as (_ & W1 & _).
      exists L. split; [|exact HF]. f_equal.
      rewrite (start_mir e (mir_est e L) ip s) by (try reflexivity; apply W1).
      unfold mir_est, e_set. t_cbn. rewrite map_app. reflexivity.
  - (* RunOnce *) cbn [allowed] in HA. cbn [est_step]. destruct (HRun HA) as (tp & t & m & R1 & R2 & R3 & R4). cbn [map nondec] in R4. destruct R4 as [R4 R5].
    pose proof (Hon HA) as HC. pose proof HC as (ids & C & _). pose proof (contacts_wfp _ _ _ _ C) as W.
    unfold RunOnce. cbn [e_prop mir_est]. rewrite Hip. cbn [option_map of_opt bind e_state mir_est]. rewrite HA. rewrite (Propagate_mir p _ ip _ tp W R1).
    destruct (prop_step _ (e_heap e) ip (e_state e) tp m HC R1 HN R3 R4) as (b & ip' & s1 & E & C1 & EQ). rewrite E. cbn [bind rmap].
    assert (exists tp1 t1, stprop s1 = Some tp1 /\ st s1 = Some t1) as (tp1 & t1 & T1 & T2).
    { destruct (ip_queue ip) as [|x l0] eqn:Eq.
      - destruct EQ as (_ & -> & ->). eauto.
      - destruct EQ as (_ & -> & E1 & E2). eauto. }
    cbn [e_corrs e_heap mir_est].
    rewrite (correct_all_mir (e_corrs e) None (e_heap e) s1 l tp1 t1) by (auto; cbn [n_ctx]; lia).
    destruct (correct_all (e_corrs e) (e_heap e) s1 l) as [[[[b2 cs] h] s2]|]; cbn [rmap bind]; [|reflexivity].
    cbn [e_slip mir_est]. rewrite Hsl. cbn [bind e_logger e_out e_logq e_enabled mir_est].
    destruct (b || b2); cbn [rmap]; (exists L; split; [|exact HF]); f_equal; unfold mir_est, e_set; t_cbn; rewrite HA; [|reflexivity].
    destruct (e_logger e); rewrite ?map_app; reflexivity.
  - (* Clear *) cbn [est_step]. unfold Clear. cbn [e_prop mir_est]. rewrite Hip. cbn [option_map of_opt bind].
    assert (RS_clear (e_state (mir_est e L)) = RS_clear (e_state e)) as ->.
    { cbn [e_state mir_est]. destruct (e_enabled e); reflexivity. }
    assert (map corr_clear (map mcorr (e_corrs e)) = map mcorr (map corr_clear (e_corrs e))) as EC.
    { rewrite !map_map. apply map_ext. intros [c|c]; reflexivity. }
    cbn [e_logger e_set mir_est e_names e_count e_corrs]. rewrite EC. destruct (e_logger e); [destruct (e_names e) as [pose vel] eqn:En|]; (exists L; split; [|exact HF]); f_equal;
      unfold e_reopen, mir_est, e_set; t_cbn; rewrite ?En; reflexivity.
  - cbn [est_step]. exists L. split; [|exact HF]. f_equal. unfold mir_est, e_set_out, e_set. t_cbn. destruct (e_out e); reflexivity.
  - cbn [est_step]. exists L. unfold LogPop. cbn [e_pending mir_est e_logq]. destruct (e_pending e) as [x|] eqn:Ep; cbn [option_map]; [auto|]. destruct (e_logq e) eqn:El; cbn [map]; [auto|]. split; [|exact HF]. f_equal.
  - cbn [est_step]. unfold waiting in Hpub. apply Forall_app in Hpub. destruct Hpub as [_ Hpub]. apply Forall_app in Hpub. destruct Hpub as [_ Hpub].
    unfold LogWrite. cbn [e_pending mir_est]. destruct (e_pending e) as [x|] eqn:Ep; cbn [option_map]; [|exists L; auto].
    apply Forall_inv in Hpub. destruct Hpub as (n & t & W & _ & Et).
    change (get_time (mirrored p x)) with (get_time x). unfold get_time. rewrite Et. cbn [of_opt bind e_logger e_rate e_lastpub mir_est].
    destruct (e_logger e && log_due (e_rate e) (t - e_lastpub e)); [|exists L; auto].
    destruct (line_mir n (e_files e) t x W) as (M & ps & v & bv & A1 & A2 & A3 & A4 & A5 & A6 & A7 & A8 & A9). rewrite A1, A2, A3, A4, A5, A6, A7, A8. cbn [bind].
    eexists. split; [reflexivity|]. cbn [e_lines e_log]. apply Forall2_app; [exact HF|]. constructor; [exact A9|constructor].
Qed.

(** ** histories *)
Lemma mir_allowed e L o : allowed e o -> allowed (mir_est e L) (mir_op p o).
Proof.
  destruct o; cbn [allowed mir_op]; auto; unfold BiasInitialized; cbn [e_prop mir_est e_enabled]; intros [H1 H2]; (split; [exact H1|]); destruct (e_prop e); cbn in *; auto.
Qed.
Lemma run_mirror : forall os e L, est_ok (imus os) e -> protocol e os -> Forall2 (mirrored_line p) (e_lines e) L ->
  protocol (mir_est e L) (map (mir_op p) os) /\
  published any_op (mir_est e L) (map (mir_op p) os) = map (mirrored p) (published any_op e os) /\
  match est_run e os with
  | Ok a => exists L1, est_run (mir_est e L) (map (mir_op p) os) = Ok (mir_est a L1) /\ Forall2 (mirrored_line p) (e_lines a) L1
  | Fail x => est_run (mir_est e L) (map (mir_op p) os) = Fail x
  end.
Proof.
  induction os as [|o os IH]; intros e L HE HP HF.
  { cbn. split; [exact I|]. split; [reflexivity|]. exists L. auto. }
  rewrite imus_cons in HE. destruct HP as [HA HP]. pose proof (step_mirror (imus os) e o L HE HA HF) as ES.
  pose proof (mir_allowed e L o HA) as HA'. cbn [published protocol est_run foldM map].
  destruct (step_safe _ _ _ HE HA) as [(e1 & E1 & HE1)|[E1 _]]; rewrite E1 in *; cbn [bind].
  - destruct ES as (L1 & ES & HF1). rewrite ES. cbn [bind]. destruct (IH e1 L1 HE1 (HP _ eq_refl) HF1) as (I1 & I2 & I3).
    split; [split; [exact HA'|intros x [= <-]; exact I1]|]. split; [|exact I3].
    rewrite map_app, I2. f_equal. cbn [any_op mir_est e_out]. rewrite map_length, skipn_map. reflexivity.
  - rewrite ES. split; [split; [exact HA'|discriminate]|]. split; reflexivity.
Qed.
Lemma quat_dflt o : toRotationMatrix (dflt (option_map (qflip p) o) (mkQ 1 0 0 0)) = mflip p (toRotationMatrix (dflt o (mkQ 1 0 0 0))).
Proof. rewrite <- tRM_flip. destruct o; [reflexivity|]. cbn [option_map dflt]. f_equal. unfold qflip, axi, pol, vneg. cbn. f_equal; ring. Qed.
Lemma mir_build f : build (mir_config p f) = mir_est (build f) [].
Proof.
  rewrite !build_eq.
  assert (map (mk_corr (f_err (mir_config p f))) (f_corrs (mir_config p f)) = map mcorr (map (mk_corr (f_err f)) (f_corrs f))) as EC.
  { cbn [f_corrs f_err mir_config]. rewrite !map_map. apply map_ext. intros [g|g].
    2:{ cbn [mir_corr_cfg mk_corr mcorr]. unfold LeggedKinematicsCorrection, mlc. cbn [lc_queue lc_err lc_enc_std lc_kin_std lc_contact_cov lc_thr lc_map map]. rewrite <- mflip_scl, mflip_id. reflexivity. }
    cbn [mir_corr_cfg mk_corr mcorr]. f_equal. unfold VelocityCorrection, mvc. cbn [g_std g_thr g_quat g_scale vc_queue vc_err vc_cov vc_thr vc_R vc_scale map]. rewrite quat_dflt, <- mflip_scl, mflip_id. reflexivity. }
  rewrite EC. cbn [f_err f_est f_imu mir_config].
  assert (ImuPropagation [] (f_err f) (mir_imu_cfg p (f_imu f)) = mir_ip p (ImuPropagation [] (f_err f) (f_imu f))) as EI.
  { unfold ImuPropagation, mir_ip. cbv zeta. cbn [ip_queue ip_err ip_static ip_init_size ip_use_ori ip_Rib ip_gyro_cov ip_accel_cov ip_gyro_bias_cov ip_accel_bias_cov ip_bg0 ip_ba0 ip_enable ip_t ip_bias_init ip_vec ip_prev map option_map].
    cbn [c_static c_init_size c_use_ori c_quat c_gyro_std c_accel_std c_gyro_bias_std c_accel_bias_std c_bg c_ba c_enable c_trans mir_imu_cfg]. rewrite quat_dflt, <- !mflip_scl, !mflip_id.
    f_equal.
    - destruct (c_bg (f_imu f)); [reflexivity|]. cbn [option_map dflt]. symmetry; apply axi_0.
    - destruct (c_ba (f_imu f)); [reflexivity|]. cbn [option_map dflt]. symmetry; apply pol_0.
    - destruct (c_trans (f_imu f)); [reflexivity|]. cbn [option_map dflt]. symmetry; apply pol_0. }
  unfold add_imu_propagation. cbn [e_err InekfEstimator]. rewrite EI. reflexivity.
Qed.
Lemma mir_stream l : imu_stream l -> imu_stream (map (mir_imu p) l).
Proof.
  intros [H1 H2]. split.
  - apply Forall_map. revert H1. apply Forall_impl. intros m Hm. cbn [i_q mir_imu]. rewrite qnorm_flip. exact Hm.
  - rewrite map_map. exact H2.
Qed.
Lemma mir_imus os : imus (map (mir_op p) os) = map (mir_imu p) (imus os).
Proof. induction os as [|o os IH]; [reflexivity|]. cbn [map]. rewrite !imus_cons, map_app, IH. destruct o; reflexivity. Qed.
End M.
Lemma mir_config_ok p f : config_ok f -> config_ok (mir_config p f).
Proof.
  intros (H1 & H2 & H3). split; [exact H1|]. split.
  - cbn [f_corrs mir_config]. apply Forall_map. revert H2. apply Forall_impl. intros [g|g] H; exact H.
  - cbn [f_corrs mir_config]. enough (length (filter is_leg (map (mir_corr_cfg p) (f_corrs f))) = length (filter is_leg (f_corrs f))) as -> by exact H3. clear. induction (f_corrs f) as [|[g|g] l IH]; cbn; auto.
Qed.
Lemma thm_mirror p f os : config_ok f -> imu_stream (imus os) -> protocol (build f) os ->
  let f' := mir_config p f in let os' := map (mir_op p) os in
  config_ok f' /\ imu_stream (imus os') /\ protocol (build f') os' /\
  published any_op (build f') os' = map (mirrored p) (published any_op (build f) os) /\
  match est_run (build f) os with
  | Ok a => exists b, est_run (build f') os' = Ok b /\ mirrored_output p a b
  | Fail x => est_run (build f') os' = Fail x
  end.
Proof.
  intros HC HS HP f' os'. split; [apply mir_config_ok; exact HC|]. split; [unfold os'; rewrite mir_imus; apply mir_stream; auto|].
  assert (e_lines (build f) = []) as EL by (rewrite build_eq; reflexivity).
  destruct (run_mirror p os (build f) [] (build_ok f _ HC HS) HP) as (A & B & C); [rewrite EL; constructor|].
  unfold f'. rewrite (mir_build p f). split; [exact A|]. split; [exact B|]. destruct (est_run (build f) os) as [a|]; [|exact C]. destruct C as (L1 & C & HF). eexists. split; [exact C|].
  constructor; auto. intros id. unfold leg_tracked. cbn [e_corrs mir_est]. split.
  - intros (c & Hc & H). apply in_map_iff in Hc. destruct Hc as ([d|d] & Ed & Hd); [discriminate|]. injection Ed as <-. exists d. auto.
  - intros (c & Hc & H). exists (mlc p c). split; [|exact H]. apply in_map_iff. exists (CLeg c). auto.
Qed.

(** ** a symmetric robot *)
Lemma fixed_map {A} (f : A -> A) l : l = map f l -> Forall (fun x => f x = x) l.
Proof. induction l as [|x l IH]; cbn [map]; intros E; constructor; [congruence|apply IH; congruence]. Qed.
Lemma signs_fix s t A i j : is_sign s -> is_sign t -> signs s t A = A -> s i <> t j -> ent A i j = 0.
Proof.
  intros Hs Ht E Hne. rewrite <- E. unfold signs. rewrite ent_mk_if. destruct (inr _ _ i j) eqn:Ei; [|reflexivity].
  assert (ent A i j = s i * t j * ent A i j) as H by (rewrite <- E at 1; unfold signs; rewrite ent_mk_if, Ei; reflexivity).
  pose proof (Hs i) as H1. pose proof (Ht j) as H2. assert (s i = 1 \/ s i = -1) as [S|S] by nra; assert (t j = 1 \/ t j = -1) as [T|T] by nra; rewrite S, T in *; try (exfalso; apply Hne; reflexivity); nra.
Qed.
Lemma sgn_cases p a : sgn p a = 1 \/ sgn p a = -1.
Proof. destruct p, a as [|[|a]]; cbn; auto. Qed.
Lemma mirrored_fix p s : mirrored p s = s -> on_mirror p s.
Proof.
  intros E. assert (signs (sX_sign p) (sX_sign p) (sX s) = sX s) as EX by (rewrite <- E at 2; reflexivity).
  assert (signs (sT_sign p) one (sTheta s) = sTheta s) as ET by (rewrite <- E at 2; reflexivity).
  assert (signs (sP_sign p (nr (sP s))) (sP_sign p (nr (sP s))) (sP s) = sP s) as EP by (rewrite <- E at 4; reflexivity).
  assert (forall n, is_sign (sP_sign p n)) as HPS. { intros n i. unfold sP_sign. destruct (_ || _); rewrite ?Rmult_opp_opp; apply sgn2. }
  clear E. constructor.
  - intros k a Ha Hs. unfold col. rewrite vget_getV3 by auto. apply (signs_fix (sX_sign p) (sX_sign p)); auto using sX_is_sign.
    unfold sX_sign. destruct (Nat.ltb_spec (0 + a) 3); [|lia]. destruct (Nat.ltb_spec (3 + k) 3); [lia|]. cbn [Nat.add]. rewrite Hs. lra.
  - intros a b Ha Hb Hs. unfold rot. rewrite mget_getM3 by auto. apply (signs_fix (sX_sign p) (sX_sign p)); auto using sX_is_sign.
    unfold sX_sign. destruct (Nat.ltb_spec (0 + a) 3); [|lia]. destruct (Nat.ltb_spec (0 + b) 3); [|lia]. exact Hs.
  - intros i Hs. apply (signs_fix (sT_sign p) one); auto using sT_is_sign, one_sign. rewrite Hs. unfold one. lra.
  - intros i j Hs. apply (signs_fix (sP_sign p (nr (sP s))) (sP_sign p (nr (sP s)))); auto.
Qed.
Lemma thm_symmetric p f os : config_ok f -> imu_stream (imus os) -> protocol (build f) os -> mir_config p f = f -> map (mir_op p) os = os ->
  Forall (on_mirror p) (published any_op (build f) os) /\
  forall a, est_run (build f) os = Ok a -> Forall (on_mirror p) (e_out a ++ e_logq a) /\ (e_enabled a = true -> on_mirror p (e_state a)).
Proof.
  intros HC HS HP E1 E2. destruct (thm_mirror p f os HC HS HP) as (_ & _ & _ & A & B). rewrite E1, E2 in A, B. split.
  - apply fixed_map in A. revert A. apply Forall_impl. intros s. apply mirrored_fix.
  - intros a Ea. rewrite Ea in B. destruct B as (b & Eb & B). injection Eb as <-. destruct B as [B1 _ B3 B4 _ _ _]. split.
    + apply Forall_app. split; [apply fixed_map in B3; revert B3|apply fixed_map in B4; revert B4]; apply Forall_impl; intros s; apply mirrored_fix.
    + intros He. rewrite He in B1. apply mirrored_fix. congruence.
Qed.

(** *** driving straight ahead *)
Lemma pol_ahead v : ahead v -> pol LeftRight v = v.
Proof. intros H. unfold ahead in H. destruct v as [a b c]. cbn in H. subst b. unfold pol, sgn. cbn [v0 v1 v2]. f_equal; ring. Qed.
Lemma axi_pitches v : pitches v -> axi LeftRight v = v.
Proof. intros [H1 H2]. destruct v as [a b c]. cbn in H1, H2. subst a c. unfold axi, vneg, pol, sgn. cbn [v0 v1 v2]. f_equal; ring. Qed.
Lemma qflip_pitch q : pitch_only q -> qflip LeftRight q = q.
Proof. intros [H1 H2]. destruct q as [w a b c]. cbn in H1, H2. subst a c. unfold qflip, axi, vneg, pol, sgn. cbn [v0 v1 v2 qw qx qy qz]. f_equal; ring. Qed.
Lemma given_fix {A} (P : A -> Prop) (g : A -> A) o : (forall a, P a -> g a = a) -> given P o -> option_map g o = o.
Proof. intros H G. destruct o as [a|]; [|reflexivity]. cbn. f_equal. apply H, G. reflexivity. Qed.
Lemma map_fix {A} (P : A -> Prop) (g : A -> A) l : (forall a, P a -> g a = a) -> Forall P l -> map g l = l.
Proof. intros H G. induction G as [|a l E G IH]; cbn; [reflexivity|]. f_equal; auto. Qed.
Lemma mir_vel_straight m : vel_straight m -> mir_vel LeftRight m = m.
Proof. intros H. unfold mir_vel. rewrite (pol_ahead _ H). destruct m; reflexivity. Qed.
Lemma mir_arr_straight a : arr_straight a -> mir_arr LeftRight a = a.
Proof.
  intros [H1 H2]. unfold mir_arr. destruct a as [v l]. cbn [a_vel a_leg] in *. f_equal.
  - apply (map_fix (Forall vel_straight)); [|exact H1]. intros x Hx. apply (map_fix vel_straight); [apply mir_vel_straight|exact Hx].
  - apply (map_fix (fun l => l = [])); [|exact H2]. intros x ->. reflexivity.
Qed.
Lemma mir_op_straight o : op_straight o -> mir_op LeftRight o = o.
Proof.
  destruct o as [m|i m|i m| |l|l| | | |]; cbn [op_straight mir_op]; intros H; try reflexivity; try contradiction.
  - f_equal. destruct H as (H1 & H2 & H3). unfold mir_imu. rewrite (qflip_pitch _ H1), (axi_pitches _ H2), (pol_ahead _ H3). destruct m; reflexivity.
  - f_equal. apply mir_vel_straight, H.
  - f_equal. apply (map_fix arr_straight); [apply mir_arr_straight|exact H].
  - f_equal. apply (map_fix arr_straight); [apply mir_arr_straight|exact H].
Qed.
Lemma mir_config_straight f : config_straight f -> mir_config LeftRight f = f.
Proof.
  intros (H1 & H2 & H3 & H4 & H5). unfold mir_config. destruct f as [er ec ic l]. cbn [f_err f_est f_imu f_corrs] in *. f_equal.
  - unfold mir_imu_cfg. rewrite (given_fix _ _ _ qflip_pitch H1), (given_fix _ _ _ axi_pitches H2), (given_fix _ _ _ pol_ahead H3), (given_fix _ _ _ pol_ahead H4).
    destruct ic; reflexivity.
  - induction l as [|[g|g] l IH]; cbn [map mir_corr_cfg]; [reflexivity| |].
    + rewrite IH; [|intros h Hh; apply H5; right; exact Hh]. rewrite (given_fix _ _ _ qflip_pitch (H5 g (or_introl eq_refl))). destruct g; reflexivity.
    + rewrite IH; [reflexivity|]. intros h Hh; apply H5; right; exact Hh.
Qed.
Lemma lines_fix p l : Forall2 (mirrored_line p) l l -> Forall (fun x => mirrored_line p x x) l.
Proof. induction l as [|x l IH]; intros H; constructor; inversion H; auto. Qed.
Lemma thm_straight f os : config_ok f -> imu_stream (imus os) -> protocol (build f) os -> config_straight f -> Forall op_straight os ->
  (forall s, In s (published any_op (build f) os) ->
    v1 (col (sX s) 0) = 0 /\ v1 (col (sX s) 1) = 0 /\
    m01 (rot (sX s)) = 0 /\ m10 (rot (sX s)) = 0 /\ m12 (rot (sX s)) = 0 /\ m21 (rot (sX s)) = 0) /\
  forall a, est_run (build f) os = Ok a -> Forall (fun l => v1 (ll_p l) = 0 /\ v1 (ll_v l) = 0) (e_lines a).
Proof.
  intros HC HS HP C O. pose proof (mir_config_straight f C) as E1. pose proof (map_fix _ _ _ mir_op_straight O) as E2. split.
  - destruct (thm_symmetric LeftRight f os HC HS HP E1 E2) as [F _]. intros s Hs. rewrite Forall_forall in F. destruct (F s Hs) as [V M _ _].
    assert (forall k, v1 (col (sX s) k) = 0) as V1 by (intros k; apply (V k 1%nat); [lia|reflexivity]).
    split; [apply V1|]. split; [apply V1|].
    assert (-1 <> 1) as N1 by lra. assert (1 <> -1) as N2 by lra.
    split; [apply (M 0%nat 1%nat); [lia|lia|exact N2]|]. split; [apply (M 1%nat 0%nat); [lia|lia|exact N1]|].
    split; [apply (M 1%nat 2%nat); [lia|lia|exact N1]|]. apply (M 2%nat 1%nat); [lia|lia|exact N2].
  - intros a Ea. destruct (thm_mirror LeftRight f os HC HS HP) as (_ & _ & _ & _ & B). rewrite E1, E2, Ea in B. destruct B as (b & Eb & B). injection Eb as <-.
    destruct B as [_ _ _ _ B5 _ _]. apply lines_fix in B5. revert B5. apply Forall_impl. intros x (_ & _ & P1 & P2 & _).
    split; [apply (f_equal v1) in P1|apply (f_equal v1) in P2]; unfold pol, sgn in *; cbn [v1] in *; lra.
Qed.

(** *** the mirror of the statements is one: a reflection, undone by itself *)
Definition Mm (p : plane) : M3 := mkM (sgn p 0) 0 0 0 (sgn p 1) 0 0 0 (sgn p 2).
Lemma pol_pol p v : pol p (pol p v) = v. Proof. destruct p, v; mir. Qed.
Lemma qflip_qflip p q : qflip p (qflip p q) = q.
Proof. destruct p, q; unfold qflip, axi, vneg, pol, sgn; cbn; f_equal; ring. Qed.
Lemma mrow_mrow p A : mrow p (mrow p A) = A.
Proof. destruct p, A; unfold mrow, sgn; ring3. Qed.
Lemma map_inv {A} (g : A -> A) l : (forall a, g (g a) = a) -> map g (map g l) = l.
Proof. intros H. induction l as [|a l IH]; cbn; [reflexivity|]. f_equal; auto. Qed.
Lemma opt_inv {A} (g : A -> A) o : (forall a, g (g a) = a) -> option_map g (option_map g o) = o.
Proof. intros H. destruct o; cbn; [f_equal; auto|reflexivity]. Qed.
Lemma mir_vel_inv p m : mir_vel p (mir_vel p m) = m. Proof. destruct m. unfold mir_vel. cbn. rewrite pol_pol. reflexivity. Qed.
Lemma mir_leg_inv p m : mir_leg p (mir_leg p m) = m.
Proof.
  destruct m as [t l f]. unfold mir_leg. cbn [lm_t lm_legs lm_initv]. f_equal.
  - apply map_inv. intros [b x J]. unfold mir_obs. cbn [lo_contact lo_pos lo_J]. rewrite pol_pol, mrow_mrow. reflexivity.
  - apply functional_extensionality. intros w. rewrite pol_pol, axi_axi. reflexivity.
Qed.
Lemma mir_arr_inv p a : mir_arr p (mir_arr p a) = a.
Proof.
  destruct a as [v l]. unfold mir_arr. cbn [a_vel a_leg]. f_equal; apply map_inv; intros x; apply map_inv; [apply mir_vel_inv|apply mir_leg_inv].
Qed.
Lemma mir_op_inv p o : mir_op p (mir_op p o) = o.
Proof.
  destruct o as [m|i m|i m| |l|l| | | |]; cbn [mir_op]; try reflexivity; f_equal.
  - destruct m as [t0 q0 w0 a0]. unfold mir_imu. cbn [i_t i_q i_w i_a]. rewrite qflip_qflip, axi_axi, pol_pol. reflexivity.
  - apply mir_vel_inv.
  - apply mir_leg_inv.
  - apply map_inv, mir_arr_inv.
  - apply map_inv, mir_arr_inv.
Qed.
Lemma mir_config_inv p f : mir_config p (mir_config p f) = f.
Proof.
  destruct f as [er ec ic l]. unfold mir_config. cbn [f_err f_est f_imu f_corrs]. f_equal.
  - unfold mir_imu_cfg. cbn [c_static c_init_size c_use_ori c_quat c_gyro_std c_accel_std c_gyro_bias_std c_accel_bias_std c_bg c_ba c_enable c_trans].
    rewrite (opt_inv _ _ (qflip_qflip p)), (opt_inv _ _ (axi_axi p)), !(opt_inv _ _ (pol_pol p)). destruct ic; reflexivity.
  - apply map_inv. intros [g|g]; [|reflexivity]. cbn [mir_corr_cfg g_std g_thr g_quat g_scale]. rewrite (opt_inv _ _ (qflip_qflip p)). destruct g; reflexivity.
Qed.
Lemma thm_reflection p : exists M, mtr M = M /\ M *m M = mid /\ det3 M = -1 /\ M *v mkV 0 0 1 = mkV 0 0 1 /\
  (forall v, pol p v = M *v v) /\
  (forall q, toRotationMatrix (qflip p q) = M *m toRotationMatrix q *m M) /\
  (forall w, skew (axi p w) = M *m skew w *m M) /\
  (forall o, mir_op p (mir_op p o) = o) /\ (forall f, mir_config p (mir_config p f) = f).
Proof.
  exists (Mm p). split; [destruct p; unfold Mm; mir|]. split; [destruct p; unfold Mm; mir|]. split; [destruct p; unfold Mm, det3, sgn; cbn [m00 m01 m02 m10 m11 m12 m20 m21 m22]; ring|].
  split; [destruct p; unfold Mm; mir|]. split; [intros v; destruct p, v; unfold Mm; mir|].
  split; [intros q; rewrite tRM_flip; generalize (toRotationMatrix q); intros A; destruct p, A; unfold Mm; mir|]. split; [intros w; destruct p, w; unfold Mm, skew; mir|].
  split; [apply mir_op_inv|apply mir_config_inv].
Qed.
