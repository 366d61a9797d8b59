(** Specification vocabulary for the ROS layer (C40, C41, C65-C69), independent of the model's helpers. *)
From Coq Require Import Reals ZArith List Bool Arith Lia.
From Verif Require Import Res Vec3 Mat Spec LieGroup RobotState SpecFilter SpecProp Imu Propagation VelCorr ImuFilter LegCorr Quat Kinematics Ros.
Import ListNotations.
Local Open Scope R_scope.

(** differential drive: speeds of the left and right side, wheel radius, track width *)
Definition drive_speed (left right radius : R) : V3 := mkV (radius * ((left + right) / 2)) 0 0.
Definition drive_yaw_rate (left right radius track : R) : V3 := mkV 0 0 (radius * (right - left) / track).

(** ** publisher *)
(** a state that can be published: well formed, world frame, with a time *)
Definition publishable (s : rstate) : Prop := exists K t, wfp K s /\ st s = Some t.
(** message number n for state s: its time, world position and orientation *)
Definition says (n : nat) (s : rstate) (m : pose_msg) : Prop :=
  pm_seq m = (Z.of_nat n mod 4294967296)%Z /\ st s = Some (pm_t m) /\ pm_p m = col (sX s) 1 /\ toRotationMatrix (pm_q m) = rot (sX s).
Definition all_say (ss : list rstate) (ms : list pose_msg) : Prop :=
  length ms = length ss /\ forall n s m, nth_error ss n = Some s -> nth_error ms n = Some m -> says n s m.
(** the k-th, 2k-th, 3k-th ... element *)
Fixpoint every_from {A} (n k : nat) (l : list A) : list A :=
  match l with [] => [] | x :: l => (if Nat.eqb (S n mod k) 0 then [x] else []) ++ every_from (S n) k l end.
Definition every {A} (k : nat) (l : list A) : list A := every_from 0 k l.
(** how many poses per path pose: the integer part of the quotient of the rates, an int, at least 1 *)
Definition ratio_is (k : nat) (pr par : R) : Prop := 0 < par /\ INR k <= pr / par < INR k + 1 /\ (1 <= k)%nat /\ (Z.of_nat k < 2147483648)%Z.
(** the pose of a message, as it appears in a path *)
Definition in_path (m : pose_msg) : path_pose := mkPP (pm_seq m) (pm_t m) (pm_p m) (pm_q m).
(** a path message lists every k-th pose published so far and carries the time of the last of them *)
Definition path_ok (k : nat) (sent : list pose_msg) (a : path_msg) : Prop :=
  exists n, (n <= length sent)%nat /\ pa_poses a = map in_path (every k (firstn n sent)) /\ pa_poses a <> [] /\ forall d, pa_t a = pp_t (last (pa_poses a) d).
(** what was pushed; histories in which nobody clears the queue *)
Definition pushed_states (l : list pop_) : list rstate := flat_map (fun x => match x with PPush s => [s] | _ => [] end) l.
Definition no_clear (l : list pop_) : Prop := ~ In PClear l.
(** covariance of (position, orientation) in that order, from the filter's covariance, whose
    blocks are orientation (0-2), velocity (3-5), position (6-8), ...: the order
    geometry_msgs/PoseWithCovariance prescribes *)
Definition pose_index (i : nat) : nat := if Nat.ltb i 3 then 6 + i else i - 3.
Definition is_pose_covariance (P : mat) (c : list R) : Prop :=
  forall i j, (i < 6)%nat -> (j < 6)%nat -> nth_error c (6 * i + j) = Some (ent P (pose_index i) (pose_index j)).

(** ** odometry *)
(** the odometry message gives the pose of the source frame when the body is at (A, p) and the
    source is mounted so that body = source * (Ae, pe) *)
Definition odom_reports (msg : odom_msg) (Ae : M3) (pe : V3) (A : M3) (p : V3) : Prop :=
  let Rs := toRotationMatrix (om_q msg) in SO3 Rs /\ Rs *m Ae = A /\ Rs *v pe +v om_p msg = p.
(** a motion with constant body twist *)
Definition constant_twist (w v : V3) (Rb : R -> M3) (pb : R -> V3) : Prop :=
  (forall t, mderiv Rb t (Rb t *m crossm w)) /\ (forall t, vderiv pb t (Rb t *v v)).
(** the mounting given when the last source was added *)
Definition last_added (l : list osop) : option (V3 * quat) := fold_left (fun a x => match x with OSAdd t q => Some (t, q) | OSMsg _ _ => a end) l None.
(** histories in which a pass of the pose thread is not interrupted *)
Inductive apop := APush (s : rstate) | AClear | APose | APath.
Definition expand (l : list apop) : list pop_ := flat_map (fun x => match x with APush s => [PPush s] | AClear => [PClear] | APose => [PCheck; PTake] | APath => [PPath] end) l.
Inductive subseq {A} : list A -> list A -> Prop :=
| sub_nil l : subseq [] l
| sub_take x l l' : subseq l l' -> subseq (x :: l) (x :: l')
| sub_drop x l l' : subseq l l' -> subseq l (x :: l').
(** every source added by a history has the mounting (t, q) *)
Definition adds (t : V3) (q : quat) (x : osop) : Prop := match x with OSAdd t' q' => t' = t /\ q' = q | OSMsg _ _ => True end.
(** not a message of source id *)
Definition elsewhere (id : nat) (x : osop) : Prop := match x with OSAdd _ _ => True | OSMsg _ i => i <> id end.
