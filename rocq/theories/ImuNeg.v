(** Counterexamples for C17 and C43 and concrete objects for the examples. *)
From Coq Require Import Reals ZArith List Bool Lia Lra.
From Verif Require Import Res Vec3 Mat LieGroup MatInv Psd Spec LieSO3 LieSEK RobotState StateProofs StateMisc Inekf SpecFilter
  InekfProofs Imu Propagation SpecProp Blk PropagationProofs PropagationThms PropagationExact ImuThms ImuRest.
Import ListNotations.
Local Open Scope R_scope.

(** a state with one contact at (1,2,3), moving, at time 1 *)
Definition ex_state (K : nat) (P : mat) (t : R) : rstate :=
  mkRS WorldCentric (sek K mid (fun k => if Nat.eqb k 0 then vzero else mkV 1 2 (INR k))) (mO 6 1) P [] (Some t) (Some t)
    (mO (9 + 3 * K) (9 + 3 * K)) (Some vzero) true 0%Z.
Lemma ex_wfp K P t : (2 <= K)%nat -> nr P = (9 + 3 * K)%nat -> nc P = (9 + 3 * K)%nat -> wfp K (ex_state K P t).
Proof. intros. split; auto. split; cbn [sX sTheta sP ex_state]; auto. apply SEK_sek, SO3_id. Qed.
Lemma ex_noise n : contact_noise n (mO (9 + 3 * n) (9 + 3 * n)).
Proof. split; [apply psd_O|]. intros. apply ent_O. Qed.
Definition no_cfg : imu_cfg := mkICfg None None None None None None None None None None None None.
Lemma psd_std c : 0 <= c -> psd (ofM3 (c *ms mid)).
Proof.
  intros H. replace (ofM3 (c *ms mid)) with (c *S meye 3); [apply psd_scl; [auto|apply psd_eye]|].
  apply mat_ext; try reflexivity. intros i j Hi Hj. change (i < 3)%nat in Hi. change (j < 3)%nat in Hj.
  destruct i as [|[|[|i]]], j as [|[|[|j]]]; try lia; rewrite ent_scl, ent_eye, ent_ofM3 by lia; cbn; ring.
Qed.
Lemma ctor_noise_ok q e c : noise_ok (ImuPropagation q e c).
Proof. unfold noise_ok, ImuPropagation. cbn [ip_gyro_cov ip_accel_cov ip_gyro_bias_cov ip_accel_bias_cov]. repeat split; try apply psd_std; apply Rle_0_sqr. Qed.

(** ** C17 *)
Lemma thm_backward_not_psd : exists K ip m s t0 s', wfp K s /\ stprop s = Some t0 /\ noise_ok ip /\ contact_noise K (sQc s) /\
  psd (sP s) /\ i_t m < t0 /\ propagate_with ip m s = Ok s' /\ ~ psd (sP s').
Proof.
  set (s := ex_state 2 (mO 15 15) 1). set (ip := ImuPropagation [] LeftInvariant no_cfg).
  assert (wfp 2 s) as W by (apply ex_wfp; auto).
  exists 2%nat, ip, imu_default, s, 1.
  pose proof (step_eq 2 ip imu_default s 1 W eq_refl) as E. cbv zeta in E.
  eexists. split; [exact W|]. split; [reflexivity|]. split; [apply ctor_noise_ok|]. split; [apply (ex_noise 2)|].
  split; [apply psd_O|]. split; [cbn; lra|]. split; [exact E|]. cbn [sP].
  intros HP. apply (psd_diag _ 0) in HP; [|rewrite nr_next; lia].
  pose proof (fun w a dt => backward_cov 2 ip s w a dt W eq_refl eq_refl eq_refl) as B.
  match type of HP with context [next_cov 2 ip s ?w ?a ?dt] => specialize (B w a dt); 
    assert (ent (next_cov 2 ip s w a dt) 0 0 = mget (getM3 (next_cov 2 ip s w a dt) 0 0) 0 0) as EE by (rewrite mget_getM3 by lia; reflexivity);
    assert (w = vzero) as W0; [|rewrite W0 in *] end.
  { unfold rate, gbias. cbn [i_w imu_default]. unfold s. cbn [sTheta ex_state]. replace (getV3 (mO 6 1) 0 0) with vzero by (unfold getV3, vmk; rewrite !ent_O; reflexivity). ring3. }
  rewrite EE, B in HP. rewrite vscal_zero, expSO3_0, mget_scal in HP. cbn [i_t imu_default] in HP.
  unfold ip in HP. cbn [ip_gyro_cov ImuPropagation c_gyro_std no_cfg dflt] in HP. revert HP. u3. lra.
Qed.

(** ** C43 *)
Definition rest_cfg (ori : bool) (q : option quat) (t : V3) : imu_cfg :=
  mkICfg (Some true) (Some 1%Z) (Some ori) q None None None None None None None (Some t).
Definition samp (m : imu) (t : R) : imu := mkImu t (i_q m) (i_w m) (i_a m).

Lemma run_one ip s x bs m : ip_queue ip = [] -> ip_prev ip = Some m ->
  run ip s ([x] :: bs) = (let ipn := set_prev (set_queue ip []) x in
    let* s1 := propagate_with ipn m s in let* '(n, ip', s') := run ipn s1 bs in Ok (S n, ip', s')).
Proof.
  intros Q P. cbn [run]. rewrite Q. cbn [app]. unfold Propagate. cbn [ip_queue set_queue]. cbn [ip_prev set_queue]. rewrite P. cbn [of_opt bind].
  destruct (propagate_with _ m s); reflexivity.
Qed.

Lemma rest_example e c m0 : c_static c = Some true -> c_init_size c = Some 1%Z ->
  let ip := ImuPropagation [] e c in
  (ip_use_ori ip = true -> qnorm2 (i_q m0) = 1 /\ SO3 (ip_Rib ip)) ->
  exists ip1 s ip2 s1 n ip3 s2, wfp 2 s /\ col (sX s) 0 = vzero /\
    calibrate ip [[samp m0 0]; []] = Ok ip1 /\ ip_bias_init ip1 = true /\
    set_initial_state (set_queue ip1 (ip_queue ip1 ++ [samp m0 1])) s = Ok (true, ip2, s1) /\
    run ip2 s1 [[samp m0 2]; [samp m0 3]] = Ok (n, ip3, s2) /\ 
    stprop s1 = Some 1 /\ stprop s2 = Some 2.
Proof.
  intros C1 C2 ip Hori.
  assert (exists ip1, calibrate ip [[samp m0 0]; []] = Ok ip1 /\ ip_bias_init ip1 = true /\ ip_queue ip1 = [] /\
    ip_use_ori ip1 = ip_use_ori ip /\ ip_prev ip1 = Some (samp m0 0)) as (ip1 & H1 & H2 & H3 & H4 & H5).
  { unfold calibrate, InitImuBias, ip, ImuPropagation. rewrite C1, C2. eexists. split; [reflexivity|]. repeat split. }
  set (s := ex_state 2 (meye 15) 0). assert (wfp 2 s) as W by (apply ex_wfp; auto).
  set (ipq := set_queue ip1 (ip_queue ip1 ++ [samp m0 1])).
  assert (ip_queue ipq = [samp m0 1]) as Eq by (unfold ipq; cbn [ip_queue set_queue]; rewrite H3; reflexivity).
  pose proof (set_initial_ok 2 ipq s _ _ W Eq) as HI.
  set (ip2 := set_prev (set_queue ipq []) (samp m0 1)) in *. set (s1 := init_state 2 ipq (samp m0 1) s) in *.
  assert (wfp 2 s1) as W1.
  { apply init_state_wfp; auto. unfold init_rot. change (ip_use_ori ipq) with (ip_use_ori ip1). rewrite H4.
    destruct (ip_use_ori ip) eqn:Eo; [|apply SO3_id]. destruct (Hori eq_refl). apply thm_quat_unit; auto. }
  destruct (run_total 2 [[samp m0 2]; [samp m0 3]] ip2 s1 (samp m0 1) 1 W1 eq_refl eq_refl) as (n & ip3 & s2 & HR).
  exists ip1, s, ip2, s1, n, ip3, s2. split; [exact W|]. split; [apply col_aff; lia|]. split; [exact H1|]. split; [exact H2|].
  split; [exact HI|]. split; [exact HR|]. split; [reflexivity|].
  assert (ip_queue ip2 = []) as Q2 by reflexivity. assert (ip_prev ip2 = Some (samp m0 1)) as P2 by reflexivity.
  rewrite (run_one _ _ _ _ _ Q2 P2) in HR. apply bind_inv in HR. destruct HR as (sa & HA & HR).
  destruct (step_wfp 2 _ _ _ 1 _ W1 eq_refl HA) as (Wa & Ta & _).
  apply bind_inv in HR. destruct HR as ([[n2 ipb] sb] & HB & HR). injection HR as <- <- <-.
  rewrite (run_one _ _ _ _ (samp m0 2)) in HB by reflexivity. apply bind_inv in HB. destruct HB as (sc & HB & HR).
  destruct (step_wfp 2 _ _ _ _ _ Wa Ta HB) as (_ & Tb & _).
  apply bind_inv in HR. destruct HR as ([[n3 ipc] sd] & HC & HR). injection HR as <- <- <-.
  cbn [run] in HC. injection HC as <- <- <-. exact Tb.
Qed.

Lemma refute_rest e c m0 : c_static c = Some true -> c_init_size c = Some 1%Z ->
  let ip := ImuPropagation [] e c in
  (ip_use_ori ip = true -> qnorm2 (i_q m0) = 1 /\ SO3 (ip_Rib ip)) -> rest_drift ip m0 <> vzero ->
  exists K bs0 ip1 b1 s ip2 s1 bs n ip3 s2,
  Forall (same_reading m0) (ip_queue ip ++ concat bs0 ++ b1 ++ concat bs) /\
  calibrate ip bs0 = Ok ip1 /\ ip_bias_init ip1 = true /\
  wfp K s /\ col (sX s) 0 = vzero /\
  set_initial_state (set_queue ip1 (ip_queue ip1 ++ b1)) s = Ok (true, ip2, s1) /\
  run ip2 s1 bs = Ok (n, ip3, s2) /\ col (sX s2) 0 <> vzero /\ col (sX s2) 1 <> vzero.
Proof.
  intros C1 C2 ip Hori Hd. destruct (rest_example e c m0 C1 C2 Hori) as (ip1 & s & ip2 & s1 & n & ip3 & s2 & W & V & H1 & H2 & H3 & H4 & T1 & T2).
  exists 2%nat, [[samp m0 0]; []], ip1, [samp m0 1], s, ip2, s1, [[samp m0 2]; [samp m0 3]], n, ip3, s2.
  assert (Forall (same_reading m0) (ip_queue ip ++ concat [[samp m0 0]; []] ++ [samp m0 1] ++ concat [[samp m0 2]; [samp m0 3]])) as HF.
  { cbn. repeat constructor. }
  split; [exact HF|]. repeat (split; [assumption|]).
  destruct (thm_drift 2 ip [[samp m0 0]; []] m0 ip1 [samp m0 1] s ip2 s1 [[samp m0 2]; [samp m0 3]] n ip3 s2) as (A & B & E1 & E2 & E3 & E4 & E5); auto.
  - unfold ip, ImuPropagation. cbn [ip_static]. rewrite C1. reflexivity.
  - unfold ip, ImuPropagation. cbn [ip_init_size]. rewrite C2. reflexivity.
  - rewrite T1 in E1. rewrite T2 in E2. injection E1 as <-. injection E2 as <-. rewrite E4, E5.
    fold ip in Hd. destruct (rest_drift ip m0) as [x y z]. unfold vscal, vzero. cbn [v0 v1 v2].
    split; intros C; apply Hd; injection C as C3 C4 C5; unfold vzero; f_equal; lra.
Qed.

Lemma drift_lever : let ip := ImuPropagation [] LeftInvariant (rest_cfg false None (mkV 0 1 0)) in
  rest_drift ip (mkImu 0 (mkQ 1 0 0 0) (mkV 1 0 0) (mkV 0 0 (98 / 10))) <> vzero.
Proof.
  intros ip C. apply (f_equal v1) in C. revert C. unfold ip, rest_drift, start_orientation, rest_orientation, rest_gyro, gravity.
  cbn [ip_use_ori ip_Rib ip_t ImuPropagation rest_cfg dflt c_use_ori c_quat c_trans i_w i_q qw qx qy qz]. unfold toRotationMatrix. cbv zeta. u3. cbn [qw qx qy qz]. lra.
Qed.
Lemma drift_mount : let ip := ImuPropagation [] LeftInvariant (rest_cfg true (Some (mkQ 0 1 0 0)) vzero) in
  rest_drift ip (mkImu 0 (mkQ 1 0 0 0) vzero (mkV 0 0 (98 / 10))) <> vzero.
Proof.
  intros ip C. apply (f_equal v2) in C. revert C. unfold ip, rest_drift, start_orientation, rest_orientation, rest_gyro, gravity.
  cbn [ip_use_ori ip_Rib ip_t ImuPropagation rest_cfg dflt c_use_ori c_quat c_trans i_w i_q qw qx qy qz]. unfold toRotationMatrix. cbv zeta. u3. cbn [qw qx qy qz]. lra.
Qed.
