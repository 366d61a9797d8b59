(** Properties C10-C15, C47, C52: the invariant measurement updates. *)
From Coq Require Import Reals ZArith List Bool Lia Lra.
From Verif Require Import Res Vec3 Mat MatInv Psd Spec RobotState Inekf SpecFilter InekfThms.
Import ListNotations.
Local Open Scope R_scope.

(** C10: any sequence of right- and left-invariant corrections, with any
    observation matrices, noises, innovations and error conventions, keeps the
    state in SE_K(3) with the same columns and touches nothing but the estimate. *)
Theorem C10_corrections_stay_on_group : forall K cs s s', wf K s -> Forall (corr_ok K) cs ->
  foldM apply_corr s cs = Ok s' -> wf K s' /\ same_meta s s'.
Proof. exact thm_corr_seq. Qed.
Print Assumptions C10_corrections_stay_on_group.

(** C11: with positive definite measurement noise no sequence of corrections can
    fail, and the covariance stays symmetric positive semi-definite. *)
Theorem C11_corrections_keep_covariance : forall K cs s, wf K s -> psd (sP s) ->
  Forall (fun c => corr_ok K c /\ pd (c_N c)) cs ->
  exists s', foldM apply_corr s cs = Ok s' /\ wf K s' /\ psd (sP s') /\ same_meta s s'.
Proof. exact thm_seq_psd. Qed.
Print Assumptions C11_corrections_keep_covariance.

(** a non-trivial case: a state with one contact, a right- and a left-invariant correction *)
Example C11_hyps : exists s cs, wf 3 s /\ psd (sP s) /\ length cs = 2%nat /\
  Forall (fun c => corr_ok 3 c /\ pd (c_N c)) cs.
Proof.
  exists (RS_XTP (meye 6) (mO 6 1) (meye 18)),
    [mkCorr true (mk 2 1 (fun i _ => INR i + 1)) (mk 2 18 (fun i j => INR (i + j))) (meye 2) LeftInvariant;
     mkCorr false (mO 1 1) (mk 1 18 (fun i j => INR j)) (meye 1) RightInvariant].
  split; [constructor; cbn; auto; apply (LieSEK.SEK_eye 3)|]. split; [apply psd_eye|]. split; [reflexivity|].
  constructor; [|constructor; [|constructor]]; (split; [|apply pd_eye]).
  - exists 2%nat. repeat split.
  - exists 1%nat. repeat split.
Qed.

(** C12: in right-invariant coordinates no functional x of the error gets a larger
    variance, except through the z gyro bias and, with bias estimation off, the biases. *)
Theorem C12_correction_never_increases_uncertainty : forall K m Z H N s e s',
  wf K s -> measurement K m Z H N -> psd (sP s) -> psd N ->
  CorrectRightInvariant Z H N s e = Ok s' ->
  forall x, nr x = (9 + 3 * K)%nat -> nc x = 1%nat -> ent x (5 + 3 * K) 0 = 0 ->
    (sen s = false -> forall i, (3 + 3 * K <= i)%nat -> ent x i 0 = 0) ->
    quad (right_cov K e s') x <= quad (right_cov K e s) x.
Proof. exact thm_decrease. Qed.
Print Assumptions C12_correction_never_increases_uncertainty.

(** C12: and among all gains the code's gain gives the smallest covariance. *)
Theorem C12_gain_is_optimal : forall K m Z H N s e s',
  wf K s -> measurement K m Z H N -> psd (sP s) -> psd N ->
  CorrectRightInvariant Z H N s e = Ok s' ->
  exists P1 G,
    (sen s = true -> P1 = right_cov K e s) /\
    (sen s = false -> reset_at (bias_index K) (1 / 10000) (right_cov K e s) P1) /\
    reset_at (yaw_bias_index K) (1 / 10000) (joseph_form P1 H N G) (right_cov K e s') /\
    forall G', nr G' = (9 + 3 * K)%nat -> nc G' = m ->
      loewner_le (joseph_form P1 H N G) (joseph_form P1 H N G').
Proof. exact thm_optimal. Qed.
Print Assumptions C12_gain_is_optimal.

(** C52: the right-invariant update is the textbook one. *)
Theorem C52_right_update_is_textbook : forall K m Z H N s e s', wf K s -> measurement K m Z H N ->
  CorrectRightInvariant Z H N s e = Ok s' ->
  exists P1 G dX,
    (sen s = true -> P1 = right_cov K e s) /\
    (sen s = false -> reset_at (bias_index K) (1 / 10000) (right_cov K e s) P1) /\
    is_gain P1 H N G /\
    retract K (sub (G *M Z) 0 0 (3 + 3 * K) 1) dX /\ sX s' = dX *M sX s /\
    (forall i, (i < 6)%nat -> ent (sTheta s') i 0 =
       ent (sTheta s) i 0 + (if Nat.eqb i 2 then 0 else ent (G *M Z) (3 + 3 * K + i) 0)) /\
    reset_at (yaw_bias_index K) (1 / 10000) (joseph_form P1 H N G) (right_cov K e s').
Proof. exact thm_textbook. Qed.
Print Assumptions C52_right_update_is_textbook.

(** C13: the right-invariant update does not depend on the error convention. *)
Theorem C13_convention_independent : forall K m Z H N sr sl, wf K sr -> wf K sl -> measurement K m Z H N ->
  sX sr = sX sl -> sTheta sr = sTheta sl -> sen sr = sen sl -> sP sr = right_cov K LeftInvariant sl ->
  match CorrectRightInvariant Z H N sr RightInvariant, CorrectRightInvariant Z H N sl LeftInvariant with
  | Ok sr', Ok sl' => sX sr' = sX sl' /\ sTheta sr' = sTheta sl' /\ sP sr' = right_cov K LeftInvariant sl'
  | Fail e1, Fail e2 => e1 = e2
  | _, _ => False
  end.
Proof. exact thm_convention. Qed.
Print Assumptions C13_convention_independent.

(** C14: with bias estimation off and measurements that do not observe the
    biases, no sequence of corrections ever changes a bias. *)
Theorem C14_disabled_biases_are_frozen : forall K cs s s', wf K s -> sen s = false ->
  Forall (fun c => corr_ok K c /\ bias_free K (c_H c)) cs ->
  foldM apply_corr s cs = Ok s' -> sTheta s' = sTheta s.
Proof. exact thm_frozen. Qed.
Print Assumptions C14_disabled_biases_are_frozen.

(** C14: right-invariant corrections never change the z gyro bias. *)
Theorem C14_yaw_bias_never_changes : forall K cs s s', wf K s ->
  Forall (fun c => corr_ok K c /\ c_right c = true) cs ->
  foldM apply_corr s cs = Ok s' -> ent (sTheta s') 2 0 = ent (sTheta s) 2 0.
Proof. exact thm_yaw_frozen. Qed.
Print Assumptions C14_yaw_bias_never_changes.

(** C15 *)
Theorem C15_zero_innovation : forall K m H N s c s', wf K s -> measurement K m (mO m 1) H N ->
  c_Z c = mO m 1 -> c_H c = H -> c_N c = N ->
  apply_corr s c = Ok s' -> sX s' = sX s /\ sTheta s' = sTheta s.
Proof. exact thm_zero_innovation. Qed.
Print Assumptions C15_zero_innovation.

(** C47: what CorrectLeftInvariant computes.  Missing for the full claim: the
    stored covariance is used untransformed in right coordinates and
    transformed (a second time) in left coordinates. *)
Theorem C47_left_update_partial : forall K m Z H N s e s', wf K s -> measurement K m Z H N ->
  CorrectLeftInvariant Z H N s e = Ok s' ->
  exists Xi Pin P1 G dX,
    inverse_of (3 + K) (sX s) Xi /\
    Pin = match e with RightInvariant => sP s | LeftInvariant => L2R K Xi *M sP s *M mT (L2R K Xi) end /\
    (sen s = true -> P1 = Pin) /\ (sen s = false -> reset_at (bias_index K) (1 / 10000) Pin P1) /\
    is_gain P1 H N G /\
    retract K (sub (G *M Z) 0 0 (3 + 3 * K) 1) dX /\ sX s' = sX s *M dX /\
    (forall i, (i < 6)%nat -> ent (sTheta s') i 0 = ent (sTheta s) i 0 + ent (G *M Z) (3 + 3 * K + i) 0) /\
    sP s' = match e with
            | RightInvariant => L2R K (sX s') *M joseph_form P1 H N G *M mT (L2R K (sX s'))
            | LeftInvariant => joseph_form P1 H N G end.
Proof. exact thm_left_form. Qed.
Print Assumptions C47_left_update_partial.

(** C47, refuted: even a measurement that observes nothing (H = 0) corrupts the
    covariance, and the two conventions disagree. *)
Theorem C47_left_update_refuted : exists sr sl sr' sl', wf 2 sr /\ wf 2 sl /\
  sX sr = sX sl /\ sTheta sr = sTheta sl /\ sen sr = sen sl /\ psd (sP sr) /\ psd (sP sl) /\
  sP sr = right_cov 2 LeftInvariant sl /\
  measurement 2 1 (mO 1 1) (mO 1 15) (meye 1) /\
  CorrectLeftInvariant (mO 1 1) (mO 1 15) (meye 1) sr RightInvariant = Ok sr' /\
  CorrectLeftInvariant (mO 1 1) (mO 1 15) (meye 1) sl LeftInvariant = Ok sl' /\
  sP sr' <> right_cov 2 LeftInvariant sl' /\ sP sr' <> sP sr.
Proof. exact thm_left_refuted. Qed.
Print Assumptions C47_left_update_refuted.
