(** Specification vocabulary for C78: perfect sensors give the exact trajectory. *)
From Coq Require Import Reals ZArith List Bool Arith Lia.
From Verif Require Import Res Vec3 Mat MatInv Psd Spec LieGroup RobotState Inekf SpecFilter Imu Propagation SpecProp VelCorr LegCorr SpecCorr Estimator SpecEst SpecObs.
Import ListNotations.
Local Open Scope R_scope.

(** orientation (body to world), velocity and position in the world *)
Record pose := mkPose { po_R : M3; po_v : V3; po_p : V3 }.
Definition pose_of (s : rstate) : pose := mkPose (rot (sX s)) (col (sX s) 0) (col (sX s) 1).
(** the estimate agrees with the true trajectory at the time up to which it was propagated *)
Definition on_truth (T : R -> pose) (s : rstate) : Prop := exists t, stprop s = Some t /\ pose_of s = T t.

(** ** The IMU *)
(** under the constant body rate w and specific force a a robot moves from x to y in time d *)
Definition drives (w a : V3) (d : R) (x y : pose) : Prop :=
  exists Rf vf pf, strapdown w a Rf vf pf /\ x = mkPose (Rf 0) (vf 0) (pf 0) /\ y = mkPose (Rf d) (vf d) (pf d).
(** mounting of the IMU on the body *)
Definition mounting (f : config) : M3 := toRotationMatrix (dflt (c_quat (f_imu f)) (mkQ 1 0 0 0)).
Definition lever (f : config) : V3 := dflt (c_trans (f_imu f)) vzero.
(** rate and specific force of the body when the sample m has the biases bg, ba *)
Definition body_rate (f : config) (bg : V3) (m : imu) : V3 := mounting f *v i_w m -v bg.
Definition body_force (f : config) (bg ba : V3) (m : imu) : V3 :=
  mounting f *v i_a m -v ba -v cross (body_rate f bg m) (cross (body_rate f bg m) (lever f)).
(** sample m describes the true motion from time t to its own stamp; the turn in between is
    none, or large enough not to fall below the code's small-angle threshold *)
Definition imu_exact (f : config) (bg ba : V3) (T : R -> pose) (t : R) (m : imu) : Prop :=
  drives (body_rate f bg m) (body_force f bg ba m) (i_t m - t) (T t) (T (i_t m)) /\
  (body_rate f bg m = vzero \/ i_t m = t \/ TOLERANCE <= vnorm ((i_t m - t) *s body_rate f bg m)).
Fixpoint imus_exact (f : config) (bg ba : V3) (T : R -> pose) (t : R) (ms : list imu) : Prop :=
  match ms with [] => True | m :: ms => imu_exact f bg ba T t m /\ imus_exact f bg ba T (i_t m) ms end.

(** ** Velocity and leg readings *)
(** where each foot that is on the ground stands in the world *)
Definition stance := nat -> option V3.
Definition no_feet : stance := fun _ => None.
(** the stance after the leg measurement m has been taken in the pose x *)
Definition stand (x : pose) (m : lmeas) (st : stance) : stance := fun id =>
  match nth_error (lm_legs m) id with
  | Some o => if lo_contact o then Some (po_p x +v po_R x *v lo_pos o) else None
  | None => st id
  end.
(** r is a correct reading for correction g in the pose x: the velocity in body axes (through
    the configured mounting and scale); feet that stay on the ground have not moved *)
Definition reading_exact (g : corr_cfg) (x : pose) (st : stance) (r : reading) : Prop :=
  match g, r with
  | GVel g, Datatypes.inl m =>
    toRotationMatrix (dflt (g_quat g) (mkQ 1 0 0 0)) *v (dflt (g_scale g) 1 *s vm_v m) = mtr (po_R x) *v po_v x
  | GLeg _, Datatypes.inr m => forall id w w', st id = Some w -> stand x m st id = Some w' -> w' = w
  | _, _ => False
  end.
(** the reading a call has used, seen from outside: q before (with arrivals) and q' after the
    call, at propagated time t; readings older than the threshold are dropped, the last one
    taken, if it is not too old, has been used *)
Definition used_of (thr t : R) (q q' : list reading) : option reading :=
  match newest (firstn (length q - length q') q) with
  | Some r => if Rle_dec (t - thr) (r_time r) then Some r else None
  | None => None
  end.
Definition used_by (g : corr_cfg) (i : nat) (e : est) (o : op) (e' : est) : option reading :=
  used_of (cfg_thr g) (prop_time (e_state e')) (queue_of e i ++ delivered g i o) (queue_of e' i).
(** one step from e to e': every reading RunOnce uses is correct for the true pose at the
    propagated time; st and st' are where the feet stand before and after *)
Definition senses (f : config) (T : R -> pose) (e : est) (o : op) (e' : est) (st st' : stance) : Prop :=
  match o with
  | ORunOnce _ =>
    let x := T (prop_time (e_state e')) in
    (forall i g r, nth_error (f_corrs f) i = Some g -> used_by g i e o e' = Some r -> reading_exact g x st r) /\
    (forall i g m, nth_error (f_corrs f) i = Some (GLeg g) -> used_by (GLeg g) i e o e' = Some (Datatypes.inr m) -> st' = stand x m st) /\
    ((forall i g m, nth_error (f_corrs f) i = Some (GLeg g) -> used_by (GLeg g) i e o e' <> Some (Datatypes.inr m)) -> st' = st)
  | _ => st' = st
  end.
(** the same for a whole history *)
Fixpoint sensing (f : config) (T : R -> pose) (e : est) (os : list op) (st st' : stance) : Prop :=
  match os with
  | [] => st' = st
  | o :: os => exists e1 st1, est_step e o = Ok e1 /\ senses f T e o e1 st st1 /\ sensing f T e1 os st1 st'
  end.
(** the contact positions an estimator stores *)
Definition feet_of (e : est) (st : stance) : Prop :=
  forall c id, In (CLeg c) (e_corrs e) -> ppos c (e_heap e) (e_state e) id = st id.

(** ** Readings that are right whenever they are used *)
(** at every moment of the trajectory the reading r is correct for correction g: the body
    velocity is constant, a foot in contact stands at its place W *)
Definition always_right (T : R -> pose) (W : nat -> V3) (g : corr_cfg) (r : reading) : Prop :=
  match g, r with
  | GVel _, Datatypes.inl _ => forall t, reading_exact g (T t) no_feet r
  | GLeg _, Datatypes.inr m => forall t id o, nth_error (lm_legs m) id = Some o -> lo_contact o = true -> po_p (T t) +v po_R (T t) *v lo_pos o = W id
  | _, _ => False
  end.
(** driving in a circle at speed V with yaw rate w from the origin, starting at time t0 *)
Definition circle (V w t0 : R) (t : R) : pose :=
  mkPose (rotz (w * (t - t0))) (mkV (V * cos (w * (t - t0))) (V * sin (w * (t - t0))) 0) (mkV (V / w * sin (w * (t - t0))) (V / w * (1 - cos (w * (t - t0)))) 0).
(** calls, and readings of a robot driving that circle at speed 1: every callback and every
    consumer call may occur, in any order and number *)
Definition circle_op (w : R) (o : op) : Prop :=
  match o with
  | OImu m => i_w m = mkV 0 0 w /\ i_a m = mkV 0 w (98 / 10) /\ qnorm2 (i_q m) = 1
  | OVel _ m => vm_v m = mkV 1 0 0
  | ORunOnce l => forall a v, In a l -> In v (concat (a_vel a)) -> vm_v v = mkV 1 0 0
  | OLeg _ _ | OPopOut | OLogPop | OLogWrite => True
  | OInitBias | OInitState _ | OClear => False
  end.
(** stamps: in order, and the yaw between two samples is none or above the code's threshold *)
Fixpoint ticks (w t : R) (ms : list imu) : Prop :=
  match ms with
  | [] => True
  | m :: ms => t <= i_t m /\ (i_t m = t \/ TOLERANCE <= Rabs ((i_t m - t) * w)) /\ ticks w (i_t m) ms
  end.
(** calls, and readings of a legged robot that stands still: each leg may lift and touch down,
    but whenever leg id is in contact its foot is at W id *)
Definition still : R -> pose := fun _ => mkPose mid vzero vzero.
Definition feet_at (W : nat -> V3) (m : lmeas) : Prop := forall id o, nth_error (lm_legs m) id = Some o -> lo_contact o = true -> lo_pos o = W id.
Definition stand_op (W : nat -> V3) (o : op) : Prop :=
  match o with
  | OImu m => i_w m = vzero /\ i_a m = mkV 0 0 (98 / 10) /\ qnorm2 (i_q m) = 1
  | OLeg _ m => feet_at W m
  | ORunOnce l => forall a m, In a l -> In m (concat (a_leg a)) -> feet_at W m
  | OVel _ _ | OPopOut | OLogPop | OLogWrite => True
  | OInitBias | OInitState _ | OClear => False
  end.
