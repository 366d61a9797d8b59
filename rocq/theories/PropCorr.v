(** Properties C21-C25, C55: the velocity and legged-kinematics corrections. *)
From Coq Require Import Reals ZArith List Bool Lia Lra.
From Verif Require Import Res Vec3 Mat MatInv Psd Spec LieGroup RobotState Inekf SpecFilter Imu Propagation SpecProp VelCorr LegCorr SpecCorr
  LieSEK ImuNeg Queue VelThms LegThms LegAdd LegLoop LegUpd LegHist CorrInno.
Import ListNotations.
Local Open Scope R_scope.

(** C21: over any sequence of calls with any states and any samples arriving before and
    during the calls, the consumed samples are a prefix of the delivered ones in order, each
    belongs to one call which either dropped it because it was stale or applied it (at most one
    per call, never stale, as the right-invariant update of the body velocity); a call that
    applied nothing returns false and leaves the state untouched. *)
Theorem C21_velocity_samples_in_order_once : forall calls c outs c', vel_calls c calls = Ok (outs, c') ->
  exists fates, Forall3 (vel_fate_ok c) calls outs fates /\
    vc_queue c ++ concat (map (fun k => concat (k_sched k)) calls) = concat (map consumed fates) ++ vc_queue c'.
Proof. exact thm_vel_fates. Qed.
Print Assumptions C21_velocity_samples_in_order_once.
(** ... and a sample in the time window at the head of the queue is applied. *)
Theorem C21_fresh_sample_is_applied : forall c s m q sched tp, vc_queue c ++ hd_batch sched = m :: q -> stprop s = Some tp ->
  tp - vc_thr c <= vm_t m < tp ->
  vel_Correct c s sched = (let* s' := vel_update c m s in Ok (true, vc_set_queue c (q ++ concat (tl_batch sched)), s')).
Proof. exact thm_vel_progress. Qed.
Print Assumptions C21_fresh_sample_is_applied.
(** ... and no call ever fails or leaves the group or the PSD cone. *)
Theorem C21_velocity_correction_total : forall K c s sched, wfp K s -> psd (sP s) -> vel_noise_ok c -> (exists tp, stprop s = Some tp) ->
  exists b c' s', vel_Correct c s sched = Ok (b, c', s') /\ wfp K s' /\ psd (sP s').
Proof. exact thm_vel_total. Qed.
Print Assumptions C21_velocity_correction_total.
(** every constructor call gives a non-degenerate noise unless the configured std is 0 *)
Example C21_noise_ok : vel_noise_ok (VelocityCorrection [] RightInvariant no_vcfg).
Proof. apply ctor_vel_noise. discriminate. Qed.
(** two calls: the first drops a stale sample and applies the next, the second finds nothing *)
Example C21_two_calls : exists outs c', let s := ex_state 2 (meye 15) 1 in
  vel_calls (ex_vc [mkVM 0 vzero]) [mkCall s [[mkVM (9 / 10) (mkV 1 0 0)]]; mkCall s []] = Ok (outs, c') /\ map fst outs = [true; false].
Proof.
  set (s := ex_state 2 (meye 15) 1). assert (wfp 2 s) as W by (apply ex_wfp; auto).
  set (c := ex_vc [mkVM 0 vzero]). set (m := mkVM (9 / 10) (mkV 1 0 0)).
  destruct (vel_update_total 2 c m s W (psd_eye 15)) as (s' & E & _); [apply ctor_vel_noise; discriminate|].
  exists [(true, s'); (false, s)], (vc_set_queue c []). cbv zeta. split; [|reflexivity].
  assert (vel_Correct c s [[m]] = Ok (true, vc_set_queue c [], s')) as H.
  { unfold vel_Correct. cbn [vc_queue c ex_vc VelocityCorrection hd_batch app]. unfold get_propagate_time. change (stprop s) with (Some 1). cbn [of_opt bind].
    unfold not_past. cbn [vm_t]. destruct (Rle_dec 0 (0 - 1)); [lra|].
    cbn [vc_thr c ex_vc VelocityCorrection no_vcfg g_thr dflt].
    assert (too_old (3 / 10) 1 0 = true) as -> by (apply too_old_true; unfold stale; lra).
    cbn [tl_batch drain drain_q app vm_t m]. assert (too_old (3 / 10) 1 (9 / 10) = false) as -> by (apply too_old_false; unfold stale; lra).
    change (ex_vc [mkVM 0 vzero]) with c. change (mkVM (9 / 10) (mkV 1 0 0)) with m. rewrite E. reflexivity. }
  cbn [vel_calls k_state k_sched]. fold s. fold m. fold c. rewrite H. cbn [bind].
  unfold vel_Correct. cbn [vc_queue vc_set_queue hd_batch app bind]. reflexivity.
Qed.

(** C22.  Proved part: when the head of the queue is not stale it is used only if it lies
    strictly before the propagated time, and the state then carries its time stamp.  Missing:
    after a stale head has been discarded, the next sample is applied without that check. *)
Theorem C22_future_sample_not_used_partial : forall K c s sched m q tp c' s', wfp K s -> vc_queue c ++ hd_batch sched = m :: q -> stprop s = Some tp ->
  ~ stale (vc_thr c) tp (vm_t m) -> vel_Correct c s sched = Ok (true, c', s') ->
  vm_t m < tp /\ st s' = Some (vm_t m) /\ vel_applied K c m s s'.
Proof. exact thm_vel_not_future. Qed.
Print Assumptions C22_future_sample_not_used_partial.
(** The full claim is false of the code. *)
Theorem C22_future_sample_used_refuted : exists K c s sched tp c' s' m,
  wfp K s /\ psd (sP s) /\ stprop s = Some tp /\ vel_Correct c s sched = Ok (true, c', s') /\
  vel_applied K c m s s' /\ st s' = Some (vm_t m) /\ tp < vm_t m.
Proof. exact thm_vel_future_refuted. Qed.
Print Assumptions C22_future_sample_used_refuted.

(** C23: in every history of leg corrections, velocity corrections and propagations the
    tracked legs are exactly the legs in contact in the last measurement used (the first one
    not older than the threshold), each with its own column of the state. *)
Theorem C23_tracked_legs_are_the_contacts : forall n c h s last, leg_reach n c h s last ->
  one_column_per_leg c h s /\ (forall id, tracked c id <-> exists m, last = Some m /\ in_contact m id).
Proof. exact thm_leg_contacts. Qed.
Print Assumptions C23_tracked_legs_are_the_contacts.
(** ... and no call fails: with a PSD covariance and non-zero kinematic noise every call
    returns, and leaves a PSD covariance. *)
Theorem C23_leg_correction_total : forall n c h s last sched, leg_reach n c h s last -> psd (sP s) -> leg_noise_ok c -> (exists tp, stprop s = Some tp) ->
  exists b c' h' s', leg_Correct c h s sched = Ok (b, c', h', s') /\ psd (sP s').
Proof. exact thm_leg_total. Qed.
Print Assumptions C23_leg_correction_total.
Example C23_reached : exists n c h s m, leg_reach n c h s (Some m) /\ tracked c 0 /\ ~ tracked c 1.
Proof.
  set (s := set_cmap (ex_state 2 (meye 15) 1) (repeat None 5)).
  assert (wfp 2 s) as W. { destruct (ex_wfp 2 (meye 15) 1) as [[] ? ? ? ?]; auto. split; auto. split; auto. }
  set (m := mkLM 1 [mkLO true (mkV 0 0 (-1)) mid; mkLO false (mkV 0 0 (-1)) mid] (fun _ => vzero)). set (c := ex_lc [m]).
  assert (leg_reach 2 c [] s None) as HR by (apply LR_start; [repeat constructor|auto|reflexivity]).
  destruct (thm_leg_total 2 c [] s None [] HR) as (b & c' & h' & s' & E & _).
  { apply (psd_eye 15). } { apply ctor_leg_noise. discriminate. } { eexists; reflexivity. }
  pose proof (LR_leg 2 c [] s None [] b c' h' s' HR (Forall_nil _) E) as HR'.
  assert (first_fresh (lc_thr c) (stprop s) (lc_queue c ++ concat []) = Some m) as EF.
  { change (stprop s) with (Some 1). cbn [lc_thr lc_queue c ex_lc LeggedKinematicsCorrection no_lcfg h_thr dflt app concat first_fresh find].
    unfold fresh. cbn [lm_t m]. destruct (Rle_dec (1 - 3 / 10) 1); [reflexivity|lra]. }
  rewrite EF in HR'.
  assert (b = true) as ->.
  { destruct b; auto. exfalso. unfold leg_Correct in E. cbn [lc_queue c ex_lc LeggedKinematicsCorrection hd_batch app] in E. unfold get_propagate_time in E.
    change (stprop s) with (Some 1) in E. cbn [of_opt bind] in E. cbn [lc_thr c ex_lc LeggedKinematicsCorrection no_lcfg h_thr dflt lm_t m] in E.
    assert (too_old (3 / 10) 1 1 = false) as E0 by (apply too_old_false; unfold stale; lra). rewrite E0 in E.
    apply bind_inv in E. destruct E as ([[? ?] ?] & _ & [=]). }
  exists 2%nat, c', h', s', m. split; [exact HR'|]. destruct (thm_leg_contacts _ _ _ _ _ HR') as [_ HT].
  rewrite !HT. split.
  - exists m. split; [reflexivity|]. eexists. split; reflexivity.
  - intros (m0 & [= <-] & o & [= <-] & [=]).
Qed.

(** C24: using a measurement m on a reachable object is the Kalman update with the feet
    already tracked (leg_corrected) followed by bookkeeping (leg_booked) that leaves the core
    estimate and the positions and (co)variances of surviving contacts as they are, gives a new
    contact the position p + R f, the error of p (in left coordinates: that of p + R f), plus
    independent kinematic noise, and keeps the covariance PSD. *)
Theorem C24_touchdown : forall n c h s last m, leg_reach n c h s last -> psd (sP s) -> leg_noise_ok c ->
  exists s1 c' h' s', leg_update c h m s = Ok (c', h', s') /\
    (forall K, wfp K s -> leg_corrected K c h m s s1) /\ leg_booked c h m s1 c' h' s' /\ psd (sP s').
Proof.
  intros n c h s last m HR HP HN. destruct (leg_reach_tracks _ _ _ _ _ HR) as (_ & (ids & T) & _ & _).
  destruct (thm_leg_update c h m s ids T HP HN) as (s1 & c' & h' & s' & ids' & E1 & E2 & E3 & E4 & E5).
  exists s1, c', h', s'. split; [exact E1|]. split; [|split; [exact E3|exact E5]].
  intros K W. rewrite (wfp_unique K (2 + length ids) s W (tr_wf _ _ _ _ T)). exact E2.
Qed.
Print Assumptions C24_touchdown.
(** Measuring the same feet again right after the touchdown changes neither the mean nor the
    contacts (any time stamp, any error convention). *)
Theorem C24_remeasure : forall n c h s last m c' h' s' m2 c2 h2 s2, leg_reach n c h s last -> (forall id, ~ tracked c id) ->
  leg_update c h m s = Ok (c', h', s') -> lm_legs m2 = lm_legs m -> leg_update c' h' m2 s' = Ok (c2, h2, s2) ->
  sX s2 = sX s' /\ sTheta s2 = sTheta s' /\ h2 = h' /\ (forall id, lc_map c2 id = lc_map c' id).
Proof. exact thm_remeasure. Qed.
Print Assumptions C24_remeasure.

(** C25.  Proved part: measurements are consumed in order, dropped only when stale, and a stale
    one is never used; a call that used none returns false and changes nothing.  Missing: the
    other side of the window. *)
Theorem C25_stale_not_used_partial : forall n c h s last sched b c' h' s', leg_reach n c h s last -> leg_Correct c h s sched = Ok (b, c', h', s') ->
  exists f, lc_queue c ++ concat sched = consumed f ++ lc_queue c' /\ leg_fate_ok c h s f b c' h' s'.
Proof. exact thm_leg_call. Qed.
Print Assumptions C25_stale_not_used_partial.
(** A measurement more than the threshold ahead of the propagated time is used. *)
Theorem C25_future_used_refuted : exists n c h s sched tp c' h' s' m,
  leg_reach n c h s None /\ psd (sP s) /\ stprop s = Some tp /\ lc_queue c = [m] /\
  leg_Correct c h s sched = Ok (true, c', h', s') /\ st s' = Some (lm_t m) /\ tp + lc_thr c < lm_t m.
Proof. exact thm_leg_future_refuted. Qed.
Print Assumptions C25_future_used_refuted.

(** C55: if the true state is exp(xi) times the estimate and the measurement is exact, the
    innovations are Jr(theta) xi_v and Jr(theta) (xi_d - xi_p): functions of the
    right-invariant error alone, whatever the estimate, with first-order term H xi. *)
Theorem C55_velocity_innovation : forall K s xi E Xt, wfp K s -> nr xi = (3 + 3 * K)%nat -> nc xi = 1%nat ->
  Exp_SEK3 xi = Ok E -> Xt = E *M sX s ->
  exists Jr, RightJacobian_SO3 (getV3 xi 0 0) = Ok Jr /\
    vel_innovation s (mtr (rot Xt) *v col Xt 0) = ofV3 (Jr *v getV3 xi 3 0).
Proof. exact thm_vel_innovation. Qed.
Print Assumptions C55_velocity_innovation.
Theorem C55_foot_innovation : forall K s xi E Xt f, wfp K s -> nr xi = (3 + 3 * K)%nat -> nc xi = 1%nat -> (2 + ft_k f < K)%nat ->
  Exp_SEK3 xi = Ok E -> Xt = E *M sX s ->
  ft_pos f = mtr (rot Xt) *v (col Xt (2 + ft_k f) -v col Xt 1) ->
  exists Jr, RightJacobian_SO3 (getV3 xi 0 0) = Ok Jr /\
    foot_innovation (sX s) f = Jr *v (getV3 xi (9 + 3 * ft_k f) 0 -v getV3 xi 6 0).
Proof. exact thm_leg_innovation. Qed.
Print Assumptions C55_foot_innovation.
(** The same about the corrections themselves: with an exact measurement the velocity
    correction is the right-invariant update with innovation Jr xi_v ... *)
Theorem C55_velocity_correction : forall K c m s xi E Xt, wfp K s -> nr xi = (3 + 3 * K)%nat -> nc xi = 1%nat ->
  Exp_SEK3 xi = Ok E -> Xt = E *M sX s -> vc_R c *v (vc_scale c *s vm_v m) = mtr (rot Xt) *v col Xt 0 ->
  exists Jr, RightJacobian_SO3 (getV3 xi 0 0) = Ok Jr /\
    vel_update c m s = CorrectRightInvariant (ofV3 (Jr *v getV3 xi 3 0)) (vel_H K) (vel_N s (vc_cov c)) (set_time s (vm_t m)) (vc_err c).
Proof. exact thm_vel_correction. Qed.
Print Assumptions C55_velocity_correction.
(** ... and the legged correction is the one with the stacked innovations Jr (xi_d - xi_p) of
    the tracked feet in contact, followed by the bookkeeping of contacts (C23, C24). *)
Theorem C55_leg_correction : forall c h m s ids xi E Xt, tracks c h s ids -> psd (sP s) -> leg_noise_ok c ->
  nr xi = (9 + 3 * length ids)%nat -> nc xi = 1%nat -> Exp_SEK3 xi = Ok E -> Xt = E *M sX s ->
  (forall id o k, nth_error (lm_legs m) id = Some o -> lo_contact o = true -> contact_of c h id = Some k ->
     lo_pos o = mtr (rot Xt) *v (col Xt (2 + k) -v col Xt 1)) ->
  exists Jr s1 c' h' s', RightJacobian_SO3 (getV3 xi 0 0) = Ok Jr /\ leg_update c h m s = Ok (c', h', s') /\ leg_booked c h m s1 c' h' s' /\
    let o := feet c h 0 (lm_legs m) in
    let Z := mk (3 * length o) 1 (fun i _ => vget (Jr *v (getV3 xi (9 + 3 * ft_k (nth (i / 3) o no_foot)) 0 -v getV3 xi 6 0)) (i mod 3)) in
    (o = [] -> s1 = set_time s (lm_t m)) /\
    (o <> [] -> CorrectRightInvariant Z (leg_H (2 + length ids) o) (leg_N (sX s) o) (set_time s (lm_t m)) (lc_err c) = Ok s1).
Proof. exact thm_leg_correction. Qed.
Print Assumptions C55_leg_correction.
Example C55_hypotheses : exists K s xi E, wfp K s /\ (2 + 0 < K)%nat /\ nr xi = (3 + 3 * K)%nat /\ nc xi = 1%nat /\ Exp_SEK3 xi = Ok E.
Proof.
  exists 3%nat, (ex_state 3 (meye 18) 1), (mk 12 1 (fun i _ => INR i)), (expSEK (mk 12 1 (fun i _ => INR i))).
  split; [apply ex_wfp; auto|]. split; [lia|]. split; [reflexivity|]. split; [reflexivity|]. apply (Exp_SEK3_ok 3); reflexivity.
Qed.
