(** Specification vocabulary for C30: what an estimator remembers after clear(). *)
From Coq Require Import Reals ZArith List Bool Arith.
From Verif Require Import Res Vec3 Mat LieGroup RobotState Inekf SpecFilter Imu Propagation VelCorr LegCorr Estimator SpecEst SpecConv.
Import ListNotations.

(** a legal history of a newly constructed estimator *)
Definition legal (f : config) (os : list op) : Prop := config_ok f /\ imu_stream (imus os) /\ protocol (build f) os.

(** the two IMU calibrations are in the same state: same biases, same samples collected,
    finished or not *)
Definition same_calibration (a b : est) : Prop :=
  exists ia ib, e_prop a = Some ia /\ e_prop b = Some ib /\
    ip_bg0 ia = ip_bg0 ib /\ ip_ba0 ia = ip_ba0 ib /\ ip_vec ia = ip_vec ib /\ ip_bias_init ia = ip_bias_init ib.

(** all numbers in two states agree (the column ids are pointers) *)
Definition same_numbers (s1 s2 : rstate) : Prop := set_cmap s1 [] = set_cmap s2 [].
(** ... and the ids point to the same columns *)
Definition col_ids (h : heap) (s : rstate) : list (option (option Z)) := map (option_map (nth_error h)) (scmap s).
Definition same_seen (a b : est) (s1 s2 : rstate) : Prop :=
  same_numbers s1 s2 /\ col_ids (e_heap a) s1 = col_ids (e_heap b) s2.
(** what a user can see of the two estimators at the end of a run *)
Record same_visible (a b : est) : Prop := {
  sv_enabled : e_enabled a = e_enabled b;
  sv_state : e_enabled a = true -> same_seen a b (e_state a) (e_state b);
  sv_out : Forall2 (same_seen a b) (e_out a) (e_out b);
  sv_imu : imu_queue a = imu_queue b;
  sv_queues : map queued (e_corrs a) = map queued (e_corrs b) }.
