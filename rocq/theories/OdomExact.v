(** When the wheel odometry is exact. *)
From Coq Require Import Reals ZArith List Bool Arith Lia Lra.
From Verif Require Import Res Vec3 Mat Spec LieGroup LieSO3 LieThms RobotState SpecFilter SpecProp PropagationExact PropagationUniq Imu VelCorr ImuFilter Quat Estimator WheelOdom SpecOdom OdomThms OdomMore.
Import ListNotations.
Local Open Scope R_scope.

Lemma dshift f t0 s D : derivable_pt_lim f (t0 + s) D -> derivable_pt_lim (fun x => f (t0 + x)) s D.
Proof. intros H e He. destruct (H e He) as (d & Hd). exists d. intros h H1 H2. rewrite <- Rplus_assoc. apply Hd; auto. Qed.
Lemma mshift f t0 s D : mderiv f (t0 + s) D -> mderiv (fun x => f (t0 + x)) s D.
Proof. intros H i j Hi Hj. apply (dshift (fun x => mget (f x) i j)). apply H; auto. Qed.
Lemma vshift f t0 s D : vderiv f (t0 + s) D -> vderiv (fun x => f (t0 + x)) s D.
Proof. intros H i Hi. apply (dshift (fun x => vget (f x) i)). apply H; auto. Qed.
Lemma wo_not_started b r l o : (forall m, In m (pushed_v l) -> vm_t m <> 0) -> wo_run (WheelOdometry [] [] b r) l = Ok o -> wo_prev o = 0 -> st (wo_s o) = None.
Proof.
  revert o. induction l as [|x l IH] using rev_ind; intros o NZ E P0.
  - injection E as <-. reflexivity.
  - assert (forall m, In m (pushed_v l) -> vm_t m <> 0) as NZ' by (intros m Hm; apply NZ; rewrite pushed_v_app; apply in_app_iff; auto).
    destruct (run_inv b r l NZ') as (o1 & E1 & ps & V & A & T & W & D). unfold wo_run in *. rewrite foldM_app, E1 in E. cbn [bind foldM] in E.
    assert (wo_prev o1 = 0 -> st (wo_s o1) = None) as IH' by (apply IH; auto).
    destruct x as [m|a|]; cbn [wo_step bind] in E; try (injection E as <-; exact (IH' P0)).
    unfold WO_RunOnce in E. destruct (wo_vq o1) as [|m vq] eqn:Q; [injection E as <-; exact (IH' P0)|]. destruct (wo_aq o1) as [|a aq]; [injection E as <-; exact (IH' P0)|].
    assert (vm_t m <> 0) as NM by (apply NZ'; rewrite V; apply in_app_iff; right; left; reflexivity).
    cbn [wo_set_queues wo_prev wo_s] in E. destruct (Req_EM_T (wo_prev o1) 0); [cbn [bind] in E; injection E as <-; cbn in P0; contradiction|].
    destruct D as [(_ & P1 & _)|(_ & T0 & _)]; [contradiction|]. destruct (Integrate_eq (wo_s o1) (vm_v m) (av_w a) (vm_t m - wo_prev o1) _ T T0) as (F & s' & _ & HI & T' & _ & TT & _).
    rewrite HI in E. cbn [bind] in E. destruct (LogPose_eq (wo_set_state (wo_set_queues o1 vq aq) s' (vm_t m)) _ T' TT) as (o2 & E2 & E3 & E4 & _). rewrite E2 in E. cbn [bind] in E. injection E as <-. rewrite E4 in P0. cbn in P0. contradiction.
Qed.
(** the heading is that of the true motion with the sample's rate; the position too when the
    velocity is along the axis of rotation *)
Lemma thm_odometry_exact b r l o m a vq aq t0 (Rb : R -> M3) (pb : R -> V3) :
  (forall m, In m (pushed_v l) -> vm_t m <> 0) -> wo_run (WheelOdometry [] [] b r) l = Ok o -> wo_vq o = m :: vq -> wo_aq o = a :: aq -> get_time (wo_s o) = Ok t0 ->
  (forall s, mderiv Rb s (Rb s *m crossm (av_w a))) -> (forall s, vderiv pb s (Rb s *v vm_v m)) ->
  get_world_rotation (wo_s o) = Ok (Rb t0) -> get_world_position (wo_s o) = Ok (pb t0) ->
  (av_w a = vzero \/ TOLERANCE <= vnorm ((vm_t m - t0) *s av_w a)) ->
  exists o', WO_RunOnce o = Ok o' /\ get_time (wo_s o') = Ok (vm_t m) /\ get_world_rotation (wo_s o') = Ok (Rb (vm_t m)) /\
    (cross (av_w a) (vm_v m) = vzero -> get_world_position (wo_s o') = Ok (pb (vm_t m))).
Proof.
  intros NZ E Q1 Q2 T0 HR Hp R0 P0 HE. destruct (run_inv b r l NZ) as (o1 & E1 & ps & V & A & T & W & D). rewrite E in E1. injection E1 as <-.
  unfold get_time, of_opt in T0. destruct (st (wo_s o)) as [t|] eqn:S; [|discriminate]. injection T0 as ->.
  assert (wo_prev o <> 0) as NP by (intros C; pose proof (wo_not_started b r l o NZ E C); congruence).
  assert (wo_prev o = t0) as EP by (destruct D as [(_ & C & _)|(_ & C & _)]; [contradiction|congruence]).
  destruct (Integrate_eq (wo_s o) (vm_v m) (av_w a) (vm_t m - t0) _ T S) as (F & s' & HF & HI & T' & W' & TT & I1 & I2 & I3 & _). replace (t0 + (vm_t m - t0)) with (vm_t m) in TT by ring.
  destruct (LogPose_eq (wo_set_state (wo_set_queues o vq aq) s' (vm_t m)) _ T' TT) as (o2 & E2 & E3 & _). cbn [wo_set_state wo_s] in E3.
  exists o2. split; [unfold WO_RunOnce; rewrite Q1, Q2; cbn [wo_set_queues wo_prev wo_s]; destruct (Req_EM_T (wo_prev o) 0); [contradiction|]; rewrite EP, HI; exact E2|].
  destruct T as [N1 N2]. destruct T' as [N1' N2']. unfold get_world_rotation, get_world_position, get_rotation, get_position in *. rewrite W in R0, P0. rewrite E3, W', W.
  rewrite cgetM3_ok in R0 by (rewrite ?N1, ?N2; lia). rewrite cgetV3_ok in P0 by (rewrite ?N1, ?N2; lia). cbn [bind] in R0, P0. injection R0 as R0. injection P0 as P0.
  unfold get_time. rewrite TT. split; [reflexivity|]. rewrite cgetM3_ok by (rewrite ?N1', ?N2'; lia). rewrite cgetV3_ok by (rewrite ?N1', ?N2'; lia). cbn [bind]. rewrite I1, I3, R0, P0.
  assert (forall s, mderiv (fun x => Rb (t0 + x)) s (Rb (t0 + s) *m crossm (av_w a))) as HR' by (intros s; apply mshift, HR).
  split.
  - f_equal. unfold Exp_SO3 in HF. rewrite Gamma0 in HF. injection HF as <-.
    destruct (gammas_exact (av_w a) (vm_t m - t0) HE) as (G & _). rewrite G.
    pose proof (rot_unique (av_w a) (fun x => Rb (t0 + x)) (Rb (t0 + 0))) as U. cbv beta in U. transitivity (Rb (t0 + (vm_t m - t0))); [|f_equal; ring]. rewrite U; [|destruct (Req_EM_T (vnorm (av_w a)) 0) as [Z|Z]; [right; apply vnorm_0_inv; exact Z|left; exact Z]|exact HR'|reflexivity].
    rewrite Rplus_0_r. unfold flowR. destruct (Req_EM_T (vnorm (av_w a)) 0); [|reflexivity]. rewrite mmul_id_r. reflexivity.
  - intros C. f_equal. transitivity (pb (t0 + (vm_t m - t0))); [|f_equal; ring]. rewrite (thm_straight (fun x => Rb (t0 + x)) (fun x => pb (t0 + x)) (av_w a) (vm_v m) (vm_t m - t0) C HR').
    + cbv beta. rewrite Rplus_0_r. reflexivity.
    + intros s. apply (vshift pb). apply Hp.
Qed.
