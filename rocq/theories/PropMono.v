(** Property C86: who claims less uncertainty never ends up with more. *)
From Coq Require Import Reals ZArith List Bool Lia Lra.
From Verif Require Import Res Vec3 Mat MatInv Psd Spec LieGroup LieSEK RobotState Inekf SpecFilter Imu Propagation SpecProp
  PropagationProofs ImuThms SpecMono Mono.
Import ListNotations.
Local Open Scope R_scope.

(** C86: two filters apply the same corrections - same observation matrices, but
    whatever residuals, and from whatever estimates, with either error convention
    of their own.  If the first starts with no more uncertainty (Loewner order,
    right-invariant coordinates) and is never told more measurement noise, it ends
    with no more uncertainty. *)
Theorem C86_corrections_monotone : forall K cs1 cs2 s1 s2 s1' s2' e1 e2,
  wf K s1 -> wf K s2 -> sen s1 = sen s2 -> psd (sP s1) -> psd (sP s2) ->
  Forall (fun c => corr_ok K c /\ psd (c_N c) /\ c_right c = true /\ c_e c = e1) cs1 ->
  Forall (fun c => corr_ok K c /\ psd (c_N c) /\ c_right c = true /\ c_e c = e2) cs2 ->
  Forall2 (fun c1 c2 => c_H c1 = c_H c2 /\ loewner_le (c_N c1) (c_N c2)) cs1 cs2 ->
  loewner_le (right_cov K e1 s1) (right_cov K e2 s2) ->
  foldM apply_corr s1 cs1 = Ok s1' -> foldM apply_corr s2 cs2 = Ok s2' ->
  loewner_le (right_cov K e1 s1') (right_cov K e2 s2').
Proof. exact thm_correct_seq_mono. Qed.
Print Assumptions C86_corrections_monotone.

(** C86: the same for any number of propagations of the same mean with the same samples. *)
Theorem C86_propagation_monotone : forall K ip1 ip2 used, quieter ip1 ip2 -> forall s1 s2 t0 s1' s2',
  wfp K s1 -> wfp K s2 -> stprop s1 = Some t0 -> stprop s2 = Some t0 -> nondec t0 (map i_t used) ->
  sX s1 = sX s2 -> sTheta s1 = sTheta s2 -> sQc s1 = sQc s2 -> contact_noise K (sQc s1) ->
  loewner_le (sP s1) (sP s2) ->
  foldM (fun s m => propagate_with ip1 m s) s1 used = Ok s1' ->
  foldM (fun s m => propagate_with ip2 m s) s2 used = Ok s2' ->
  loewner_le (sP s1') (sP s2') /\ sX s1' = sX s2'.
Proof. exact thm_propagate_seq_mono. Qed.
Print Assumptions C86_propagation_monotone.

(** C86: a configuration with smaller standard deviations is such a quieter one. *)
Theorem C86_smaller_std_quieter : forall q1 q2 e c1 c2,
  c_quat c1 = c_quat c2 -> c_trans c1 = c_trans c2 -> c_enable c1 = c_enable c2 ->
  (forall f, In f [c_gyro_std; c_accel_std; c_gyro_bias_std; c_accel_bias_std] ->
     dflt (f c1) (1 / 10) * dflt (f c1) (1 / 10) <= dflt (f c2) (1 / 10) * dflt (f c2) (1 / 10)) ->
  quieter (ImuPropagation q1 e c1) (ImuPropagation q2 e c2).
Proof. exact thm_quieter. Qed.
Print Assumptions C86_smaller_std_quieter.
Example C86_quieter_hyps : exists c1 c2, c1 <> c2 /\ c_quat c1 = c_quat c2 /\ c_trans c1 = c_trans c2 /\ c_enable c1 = c_enable c2 /\
  (forall f, In f [c_gyro_std; c_accel_std; c_gyro_bias_std; c_accel_bias_std] ->
     dflt (f c1) (1 / 10) * dflt (f c1) (1 / 10) <= dflt (f c2) (1 / 10) * dflt (f c2) (1 / 10)).
Proof. exact ex_quieter. Qed.

(** two filters with a contact; the first starts with half the covariance and is told half the noise *)
Example C86_hyps : exists cs1 cs2 s1 s2 s1' s2',
  wf 3 s1 /\ wf 3 s2 /\ sen s1 = sen s2 /\ psd (sP s1) /\ psd (sP s2) /\
  Forall (fun c => corr_ok 3 c /\ psd (c_N c) /\ c_right c = true /\ c_e c = RightInvariant) cs1 /\
  Forall (fun c => corr_ok 3 c /\ psd (c_N c) /\ c_right c = true /\ c_e c = RightInvariant) cs2 /\
  Forall2 (fun c1 c2 => c_H c1 = c_H c2 /\ loewner_le (c_N c1) (c_N c2)) cs1 cs2 /\
  loewner_le (right_cov 3 RightInvariant s1) (right_cov 3 RightInvariant s2) /\ length cs1 = 1%nat /\
  foldM apply_corr s1 cs1 = Ok s1' /\ foldM apply_corr s2 cs2 = Ok s2'.
Proof. exact ex_mono. Qed.
