(** Specification vocabulary for C82: a parked robot. *)
From Coq Require Import Reals ZArith List Bool.
From Verif Require Import Res Vec3 Mat LieGroup RobotState Imu Propagation SpecProp VelCorr LegCorr Quat Kinematics Estimator SpecEst SpecTrack Driver Ros SpecRos Node SpecNode.
Import ListNotations.
Local Open Scope R_scope.

(** the IMU always reads w and a - whatever its biases and however the robot is tilted *)
Definition parked_sample (w a : V3) (m : imu) : Prop := i_w m = w /\ i_a m = a.
(** no speed; each foot on the ground at its place W id, no speed computed from the legs *)
Definition parked_reading (w : V3) (W : nat -> V3) (r : reading) : Prop :=
  match r with
  | Datatypes.inl m => vm_v m = vzero
  | Datatypes.inr m => feet_at W m /\ lm_initv m w = vzero
  end.
Definition parked_arrivals (w : V3) (W : nat -> V3) (x : arrivals) : Prop :=
  (forall m, In m (concat (a_vel x)) -> parked_reading w W (Datatypes.inl m)) /\ (forall m, In m (concat (a_leg x)) -> parked_reading w W (Datatypes.inr m)).
Definition parked_op (w a : V3) (W : nat -> V3) (o : op) : Prop :=
  match o with
  | OImu m => parked_sample w a m
  | OVel _ m => parked_reading w W (Datatypes.inl m)
  | OLeg _ m => parked_reading w W (Datatypes.inr m)
  | OInitState l | ORunOnce l => forall x, In x l -> parked_arrivals w W x
  | OClear => False
  | OInitBias | OPopOut | OLogPop | OLogWrite => True
  end.
(** the program can account for these readings: the orientation of the IMU is not used, and
    either the program calibrates itself (with the IMU at the origin of the body, or no turn
    rate across the lever arm) or the configured biases are the right ones *)
Definition accounts_for (f : config) (w a : V3) : Prop :=
  dflt (c_use_ori (f_imu f)) false = false /\
  if dflt (c_static (f_imu f)) true then cross (mounting f *v w) (cross (mounting f *v w) (lever f)) = vzero
  else dflt (c_bg (f_imu f)) vzero = mounting f *v w /\ dflt (c_ba (f_imu f)) vzero = mounting f *v a +v gravity.

(** ** messages of a parked robot with no legs *)
Definition parked_message (w a : V3) (m : rosmsg) : Prop :=
  match m with
  | MImu m => im_w m = w /\ im_a m = a
  | MJoint m => Forall (fun x => x = 0) (js_vel m)
  | MTwist _ v | MTwistCov _ v _ => v = vzero
  | MOdom _ | MLegs _ _ _ => False
  end.
Definition parked_event (w a : V3) (v : nodev) : Prop :=
  match v with
  | NMsg m => parked_message w a m
  | NIter l => forall x, In x l -> parked_arrivals w (fun _ => vzero) x /\ concat (a_leg x) = []
  | _ => True
  end.
(** a pose message that says: at the origin, not turned *)
Definition at_origin (m : pose_msg) : Prop := pm_p m = vzero /\ toRotationMatrix (pm_q m) = mid.
