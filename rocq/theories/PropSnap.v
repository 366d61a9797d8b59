(** Property C46: the column ids of published states. *)
From Coq Require Import Reals ZArith List Bool Lia Lra.
From Verif Require Import Res Vec3 Mat Spec RobotState Imu LegCorr Estimator SpecEst SpecSnap Snap SnapEx.
Import ListNotations.

(** C46.  Proved: the ids of a published state read as its own column numbers when it is
    published and for as long as no foot in contact is lifted (feet may touch down, the
    estimator may be cleared and started again, any number of further calls may happen).
    The matrices of a published state are copied values.  Missing: lifting a foot, for which
    the claim is false. *)
Theorem C46_published_ids_partial : forall f os o os' e0 e1 e2 s, config_ok f -> imu_stream (imus (os ++ o :: os')) -> protocol (build f) (os ++ o :: os') ->
  est_run (build f) os = Ok e0 -> est_step e0 o = Ok e1 -> est_run e1 os' = Ok e2 -> In s (skipn (length (e_out e0)) (e_out e1)) ->
  no_contact_lost e1 os' -> ids_right (e_heap e1) s /\ ids_right (e_heap e2) s.
Proof. exact thm_snapshot. Qed.
Print Assumptions C46_published_ids_partial.
(** two feet touch down, the state with both columns is published, another measurement with both feet down follows *)
Example C46_example : exists e0 e1 e2 s, let os' := sxAfter true true in
  config_ok sxF /\ imu_stream (imus (sxPre ++ ORunOnce [] :: os')) /\ protocol (build sxF) (sxPre ++ ORunOnce [] :: os') /\
  est_run (build sxF) sxPre = Ok e0 /\ est_step e0 (ORunOnce []) = Ok e1 /\ est_run e1 os' = Ok e2 /\ In s (skipn (length (e_out e0)) (e_out e1)) /\
  no_contact_lost e1 os' /\ nc (sX s) = 7%nat.
Proof. exact thm_snapshot_example. Qed.
(** In general: a legal history publishes a state whose ids are wrong afterwards, because
    lifting the other foot decrements the integers the published copy shares. *)
Theorem C46_published_ids_refuted : exists f os o os' e0 e1 e2 s, config_ok f /\ imu_stream (imus (os ++ o :: os')) /\ protocol (build f) (os ++ o :: os') /\
  est_run (build f) os = Ok e0 /\ est_step e0 o = Ok e1 /\ est_run e1 os' = Ok e2 /\ In s (skipn (length (e_out e0)) (e_out e1)) /\
  ids_right (e_heap e1) s /\ ~ ids_right (e_heap e2) s.
Proof. exact thm_snapshot_refuted. Qed.
Print Assumptions C46_published_ids_refuted.
