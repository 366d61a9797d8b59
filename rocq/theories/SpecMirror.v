(** Specification vocabulary for C88: the world seen in a mirror. *)
From Coq Require Import Reals ZArith List Bool Arith.
From Verif Require Import Res Vec3 Mat Spec RobotState Imu Propagation VelCorr LegCorr Estimator SpecEst SpecSnap.
Import ListNotations.
Local Open Scope R_scope.

(** the two vertical mirrors: left-right changes the sign of the second coordinate, front-back
    that of the first *)
Inductive plane := LeftRight | FrontBack.
Definition sgn (p : plane) (a : nat) : R :=
  match p, a with LeftRight, 1%nat => -1 | FrontBack, 0%nat => -1 | _, _ => 1 end.

(** positions, velocities, accelerations, offsets *)
Definition pol (p : plane) (v : V3) : V3 := mkV (sgn p 0 * v0 v) (sgn p 1 * v1 v) (sgn p 2 * v2 v).
(** angular velocities: what turns to the left turns to the right in the mirror *)
Definition axi (p : plane) (v : V3) : V3 := vneg (pol p v).
(** the rotation a becomes M a M, M the mirror *)
Definition mflip (p : plane) (A : M3) : M3 :=
  mkM (sgn p 0 * sgn p 0 * m00 A) (sgn p 0 * sgn p 1 * m01 A) (sgn p 0 * sgn p 2 * m02 A)
      (sgn p 1 * sgn p 0 * m10 A) (sgn p 1 * sgn p 1 * m11 A) (sgn p 1 * sgn p 2 * m12 A)
      (sgn p 2 * sgn p 0 * m20 A) (sgn p 2 * sgn p 1 * m21 A) (sgn p 2 * sgn p 2 * m22 A).
Definition qflip (p : plane) (q : quat) : quat :=
  let v := axi p (mkV (qx q) (qy q) (qz q)) in mkQ (qw q) (v0 v) (v1 v) (v2 v).

(** what the mirrored robot's sensors report *)
Definition mir_imu (p : plane) (m : imu) : imu := mkImu (i_t m) (qflip p (i_q m)) (axi p (i_w m)) (pol p (i_a m)).
Definition mir_vel (p : plane) (m : vmeas) : vmeas := mkVM (vm_t m) (pol p (vm_v m)).
(** feet: mirrored positions at the same joint angles, so that the rows of the Jacobian (foot
    coordinates) change sign and not its columns (joints); a leg and its image carry the same
    number *)
Definition mrow (p : plane) (A : M3) : M3 :=
  mkM (sgn p 0 * m00 A) (sgn p 0 * m01 A) (sgn p 0 * m02 A) (sgn p 1 * m10 A) (sgn p 1 * m11 A) (sgn p 1 * m12 A) (sgn p 2 * m20 A) (sgn p 2 * m21 A) (sgn p 2 * m22 A).
Definition mir_obs (p : plane) (o : leg_obs) : leg_obs := mkLO (lo_contact o) (pol p (lo_pos o)) (mrow p (lo_J o)).
Definition mir_leg (p : plane) (m : lmeas) : lmeas := mkLM (lm_t m) (map (mir_obs p) (lm_legs m)) (fun w => pol p (lm_initv m (axi p w))).
Definition mir_arr (p : plane) (a : arrivals) : arrivals := mkArr (map (map (mir_vel p)) (a_vel a)) (map (map (mir_leg p)) (a_leg a)).
Definition mir_op (p : plane) (o : op) : op :=
  match o with
  | OImu m => OImu (mir_imu p m)
  | OVel i m => OVel i (mir_vel p m)
  | OLeg i m => OLeg i (mir_leg p m)
  | OInitState l => OInitState (map (mir_arr p) l)
  | ORunOnce l => ORunOnce (map (mir_arr p) l)
  | _ => o
  end.

(** how it is configured: the mounting rotations, the lever arm and the initial biases *)
Definition mir_imu_cfg (p : plane) (c : imu_cfg) : imu_cfg :=
  mkICfg (c_static c) (c_init_size c) (c_use_ori c) (option_map (qflip p) (c_quat c)) (c_gyro_std c) (c_accel_std c) (c_gyro_bias_std c) (c_accel_bias_std c)
    (option_map (axi p) (c_bg c)) (option_map (pol p) (c_ba c)) (c_enable c) (option_map (pol p) (c_trans c)).
Definition mir_corr_cfg (p : plane) (c : corr_cfg) : corr_cfg :=
  match c with
  | GVel g => GVel (mkVCfg (g_std g) (g_thr g) (option_map (qflip p) (g_quat g)) (g_scale g))
  | GLeg _ => c
  end.
Definition mir_config (p : plane) (f : config) : config := mkCfg (f_err f) (f_est f) (mir_imu_cfg p (f_imu f)) (map (mir_corr_cfg p) (f_corrs f)).
(** entry ij times s i and t j *)
Definition signs (s t : nat -> R) (A : mat) : mat := mk (nr A) (nc A) (fun i j => s i * t j * ent A i j).
(** state matrix: rotation, and the columns velocity, position, contacts *)
Definition sX_sign (p : plane) (i : nat) : R := if (i <? 3)%nat then sgn p i else 1.
(** bias vector: gyroscope, accelerometer *)
Definition sT_sign (p : plane) (i : nat) : R := if (i <? 3)%nat then - sgn p i else sgn p (i - 3).
(** error coordinates (n of them): the orientation error and the gyroscope bias are angular *)
Definition sP_sign (p : plane) (n i : nat) : R :=
  if ((i <? 3) || ((n - 6 <=? i) && (i <? n - 3)))%nat then - sgn p (i mod 3) else sgn p (i mod 3).
Definition mirrored (p : plane) (s : rstate) : rstate :=
  mkRS (stype s) (signs (sX_sign p) (sX_sign p) (sX s)) (signs (sT_sign p) (fun _ => 1) (sTheta s))
    (signs (sP_sign p (nr (sP s))) (sP_sign p (nr (sP s))) (sP s)) (scmap s) (st s) (stprop s)
    (signs (sP_sign p (nr (sQc s))) (sP_sign p (nr (sQc s))) (sQc s)) (option_map (axi p) (sbav s)) (sen s) (sslip s).
Definition mirrored_line (p : plane) (a b : log_line) : Prop :=
  ll_file b = ll_file a /\ ll_t b = ll_t a /\ ll_p b = pol p (ll_p a) /\ ll_v b = pol p (ll_v a) /\ ll_bv b = pol p (ll_bv a) /\
  toRotationMatrix (ll_q b) = mflip p (toRotationMatrix (ll_q a)).

(** everything a user can see of the two estimators; before the initialisation (and after a
    clear) there is no estimate yet and the two states are the same *)
Record mirrored_output (p : plane) (a b : est) : Prop := {
  mo_state : e_state b = if e_enabled a then mirrored p (e_state a) else e_state a;
  mo_enabled : e_enabled b = e_enabled a;
  mo_out : e_out b = map (mirrored p) (e_out a);
  mo_logq : e_logq b = map (mirrored p) (e_logq a);
  mo_lines : Forall2 (mirrored_line p) (e_lines a) (e_lines b);
  mo_opened : e_opened b = e_opened a;
  mo_legs : forall id, leg_tracked b id <-> leg_tracked a id }.

(** an estimate that is its own mirror image *)
Record on_mirror (p : plane) (s : rstate) : Prop := {
  (** no velocity, position or foot off the mirror *)
  om_vec : forall k a, (a < 3)%nat -> sgn p a = -1 -> vget (col (sX s) k) a = 0;
  (** the axis across the mirror stays across: only a pitch (left-right), only a roll (front-back) *)
  om_rot : forall a b, (a < 3)%nat -> (b < 3)%nat -> sgn p a <> sgn p b -> mget (rot (sX s)) a b = 0;
  om_bias : forall i, sT_sign p i = -1 -> ent (sTheta s) i 0 = 0;
  (** the errors along and across the mirror are uncorrelated *)
  om_cov : forall i j, sP_sign p (nr (sP s)) i <> sP_sign p (nr (sP s)) j -> ent (sP s) i j = 0 }.

(** driving straight ahead, as one sees it in the readings: turning at most about the lateral axis
    (pitch), nothing sideways *)
Definition ahead (v : V3) : Prop := v1 v = 0.
Definition pitches (w : V3) : Prop := v0 w = 0 /\ v2 w = 0.
Definition pitch_only (q : quat) : Prop := qx q = 0 /\ qz q = 0.
Definition imu_straight (m : imu) : Prop := pitch_only (i_q m) /\ pitches (i_w m) /\ ahead (i_a m).
Definition vel_straight (m : vmeas) : Prop := ahead (vm_v m).
Definition arr_straight (a : arrivals) : Prop := Forall (Forall vel_straight) (a_vel a) /\ Forall (fun l => l = []) (a_leg a).
Definition op_straight (o : op) : Prop :=
  match o with
  | OImu m => imu_straight m
  | OVel _ m => vel_straight m
  | OLeg _ _ => False
  | OInitState l | ORunOnce l => Forall arr_straight l
  | _ => True
  end.
(** if given at all *)
Definition given {A} (P : A -> Prop) (o : option A) : Prop := forall a, o = Some a -> P a.
Definition config_straight (f : config) : Prop :=
  given pitch_only (c_quat (f_imu f)) /\ given pitches (c_bg (f_imu f)) /\ given ahead (c_ba (f_imu f)) /\ given ahead (c_trans (f_imu f)) /\
  forall g, In (GVel g) (f_corrs f) -> given pitch_only (g_quat g).
