(** Proofs: slip detection (C50), velocity at initialisation (C56), logged orientation. *)
From Coq Require Import Reals ZArith List Bool Arith Lia Lra.
From Verif Require Import Res Vec3 Mat MatInv Psd Spec LieGroup LieSEK RobotState Inekf SpecFilter Imu Propagation SpecProp VelCorr LegCorr SpecCorr ImuNeg VelThms
  Estimator SpecEst EstInv EstSafe EstHist.
Import ListNotations.
Local Open Scope R_scope.

Lemma thm_slip K s : wfp K s ->
  let d := col (sX s) (K - 1) in
  SlipEstimatorStep s = Ok (set_slip_flag s (if Rlt_dec (4642 / 1000) (1000 * vdot d d) then 1 else 0)%Z).
Proof.
  intros W d. pose proof (wp_K _ _ W) as HK. destruct (wp_wf _ _ W) as [A1 _ _ E1 E2].
  assert (nr (sX s) = 3 + K /\ nc (sX s) = 3 + K)%nat as [D1 D2] by (split; [apply (sek_rows _ _ A1)|apply (sek_cols _ _ A1)]).
  unfold SlipEstimatorStep. rewrite (get_rotation_ok K) by auto. cbn [bind]. unfold dimX. rewrite D2.
  unfold idx. destruct (Z.ltb_spec (Z.of_nat (3 + K) - 1) 0); [lia|]. cbn [bind]. replace (Z.to_nat (Z.of_nat (3 + K) - 1)) with (3 + (K - 1))%nat by lia.
  unfold get_aug_state. rewrite cgetV3_ok by lia. cbn [bind]. rewrite !cgetM3_ok by lia. cbn [bind].
  change (getV3 (sX s) 0 (3 + (K - 1))) with d.
  assert (forall v, vdot v ((1000 *ms mid) *v v) = 1000 * vdot v v) as Hv by (intros [x y z]; cbn; unfold vdot; cbn; ring). rewrite Hv. reflexivity.
Qed.
(** the flag ignores the covariance: a contact at (1,2,1) counts as slipping under every covariance *)
Lemma thm_slip_refuted : exists X, forall P, nr P = 18%nat -> nc P = 18%nat -> psd P ->
  exists s, sX s = X /\ sP s = P /\ wfp 3 s /\ SlipEstimatorStep s = Ok (set_slip_flag s 1%Z).
Proof.
  exists (sX (ex_state 3 (meye 18) 1)). intros P D1 D2 _. exists (ex_state 3 P 1). assert (wfp 3 (ex_state 3 P 1)) as W by (apply ex_wfp; auto; lia).
  split; [reflexivity|]. split; [reflexivity|]. split; [exact W|]. rewrite (thm_slip 3 _ W).
  assert (col (sX (ex_state 3 P 1)) (3 - 1) = mkV 1 2 2) as ->.
  { cbn [sX ex_state]. rewrite col_aff by lia. cbn [Nat.eqb Nat.sub]. apply V3_eq; cbn; lra. }
  unfold vdot. cbn. destruct (Rlt_dec _ _) as [|N]; [reflexivity|]. exfalso. apply N. lra.
Qed.
(** the estimator never runs the detection *)
Lemma thm_slip_off f os e : est_run (build f) os = Ok e -> e_slip e = false.
Proof. intros E. destruct (run_fixed _ _ _ E) as (F & _). unfold e_fixed in F. rewrite build_eq in F. injection F. intros. assumption. Qed.

(** initialisation ignores mounting and scale: the very reading used gives a non-zero innovation *)
Lemma thm_mount_refuted : exists g s m c' s', let c := VelocityCorrection [] RightInvariant g in
  wfp 2 s /\ vel_initialize c s [m] = Ok (true, c', s') /\
  vel_innovation s' (vc_R c *v (vc_scale c *s vm_v m)) <> mO 3 1.
Proof.
  set (g := mkVCfg None None None (Some 2)). set (s := ex_state 2 (meye 15) 1). set (m := mkVM 1 (mkV 1 0 0)).
  assert (wfp 2 s) as W by (apply ex_wfp; auto).
  exists g, s, m. do 2 eexists. cbv zeta. split; [exact W|]. split; [eapply (vel_init_ok 2); [exact W|reflexivity]|].
  intros H. apply (f_equal (fun M => ent M 0 0)) in H. cbn [last] in H. unfold vel_innovation in H.
  rewrite (put_vel_X 2 s _ _ W), rot_aff, col_aff in H by lia. cbn [Nat.eqb] in H.
  assert (rot (sX s) = mid) as RX by (unfold s; cbn [sX ex_state]; apply rot_aff). rewrite RX in H. cbn in H. rewrite ent_ofV3, ent_O in H by lia. cbn in H. lra.
Qed.

(** with identity mounting and unit scale the newest reading is reproduced exactly *)
Lemma thm_mount_identity c K s arr m : wfp K s -> vc_R c = mid -> vc_scale c = 1 -> newest (vc_queue c ++ arr) = Some m ->
  exists c' s', vel_initialize c s arr = Ok (true, c', s') /\ vc_queue c' = [] /\ st s' = Some (vm_t m) /\
    vel_innovation s' (vc_R c *v (vc_scale c *s vm_v m)) = mO 3 1 /\
    rot (sX s') = rot (sX s) /\ (forall k, (1 <= k < K)%nat -> col (sX s') k = col (sX s) k) /\ sTheta s' = sTheta s /\ sP s' = sP s.
Proof.
  intros W HR HS HN. unfold vel_initialize. unfold newest in HN. destruct (vc_queue c ++ arr) as [|x q] eqn:E; [discriminate|].
  assert (last (x :: q) x = m) as ->.
  { assert (x :: q <> []) as NE by discriminate. revert HN NE. generalize (x :: q). intros l. destruct l as [|y l] using rev_ind; [congruence|]. rewrite rev_app_distr. cbn. intros [= ->] _. apply last_last. }
  rewrite (get_rotation_ok K s W). cbn [bind].
  pose proof (set_velocity_ok K s (rot (sX s) *v vm_v m) (vm_t m) W) as E1. destruct (set_velocity s (rot (sX s) *v vm_v m)) as [s1|] eqn:E0; [|discriminate]. cbn [bind] in E1. assert (set_time s1 (vm_t m) = put_vel s (rot (sX s) *v vm_v m) (vm_t m)) as E2 by congruence.
  exists (vc_set_queue c []), (put_vel s (rot (sX s) *v vm_v m) (vm_t m)). split.
  { cbn [bind]. rewrite E2. reflexivity. }
  pose proof (put_vel_X K s (rot (sX s) *v vm_v m) (vm_t m) W) as EX. pose proof (wp_K _ _ W) as HK. split; [reflexivity|]. split; [reflexivity|].
  assert (forall k, (k < K)%nat -> col (sX (put_vel s (rot (sX s) *v vm_v m) (vm_t m))) k = if Nat.eqb k 0 then rot (sX s) *v vm_v m else col (sX s) k) as HCc.
  { intros k Hk. rewrite EX. apply col_aff. lia. }
  assert (rot (sX (put_vel s (rot (sX s) *v vm_v m) (vm_t m))) = rot (sX s)) as HRr by (rewrite EX; apply rot_aff).
  split. { unfold vel_innovation. rewrite HRr, HCc by lia. cbn [Nat.eqb]. rewrite HR, HS. apply mat_ext; [reflexivity|reflexivity|]. intros i j Hi Hj. change (i < 3)%nat in Hi. change (j < 1)%nat in Hj.
    destruct (rot (sX s)), (vm_v m). rewrite ent_O. unfold ofV3. rewrite ent_mk by lia. destruct i as [|[|[|i]]]; try lia; cbn; ring. }
  split; [exact HRr|]. split; [|auto]. intros k Hk. rewrite HCc by lia. destruct k; [lia|reflexivity].
Qed.
