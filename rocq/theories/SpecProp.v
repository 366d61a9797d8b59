(** Specification vocabulary for IMU propagation, independent of the model's helpers. *)
From Coq Require Import Reals ZArith List Bool Arith Lia.
From Verif Require Import Res Vec3 Mat MatInv Psd Spec RobotState Inekf SpecFilter Imu Propagation.
Import ListNotations.
Local Open Scope R_scope.

(** A state propagation can start from: K columns (velocity, position, K-2
    contacts), world-centric, noise matrix of matching size. *)
Record wfp (K : nat) (s : rstate) : Prop := {
  wp_wf : wf K s;
  wp_K : (2 <= K)%nat;
  wp_type : stype s = WorldCentric;
  wp_Qr : nr (sQc s) = (9 + 3 * K)%nat;
  wp_Qc : nc (sQc s) = (9 + 3 * K)%nat }.

(** A sensor object whose noise parameters are covariances. *)
Definition noise_ok (ip : imu_prop) : Prop :=
  psd (ofM3 (ip_gyro_cov ip)) /\ psd (ofM3 (ip_accel_cov ip)) /\
  psd (ofM3 (ip_gyro_bias_cov ip)) /\ psd (ofM3 (ip_accel_bias_cov ip)).
(** The state's noise matrix: a covariance that only concerns the contacts. *)
Definition contact_noise (K : nat) (Q : mat) : Prop :=
  psd Q /\ forall i j, (i < 9 \/ 3 + 3 * K <= i \/ j < 9 \/ 3 + 3 * K <= j)%nat -> ent Q i j = 0.

(** n-fold propagation; before the i-th call the i-th batch of samples arrives.
    Returns how many calls reported true. *)
Fixpoint run (ip : imu_prop) (s : rstate) (batches : list (list imu)) : res (nat * imu_prop * rstate) :=
  match batches with
  | [] => Ok (O, ip, s)
  | b :: bs =>
    let* '(ok, ip, s) := Propagate (set_queue ip (ip_queue ip ++ b)) s in
    let* '(n, ip, s) := run ip s bs in
    Ok ((if ok then S n else n), ip, s)
  end.

(** ** Strapdown equations:  R' = R [w]x,  v' = R a + g,  p' = v  *)
Definition mderiv (f : R -> M3) (t : R) (D : M3) : Prop :=
  forall i j, (i < 3)%nat -> (j < 3)%nat -> derivable_pt_lim (fun x => mget (f x) i j) t (mget D i j).
Definition vderiv (f : R -> V3) (t : R) (D : V3) : Prop :=
  forall i, (i < 3)%nat -> derivable_pt_lim (fun x => vget (f x) i) t (vget D i).
Definition gravity : V3 := mkV 0 0 (- (98 / 10)).
Definition strapdown (w a : V3) (Rf : R -> M3) (vf pf : R -> V3) : Prop :=
  forall t, mderiv Rf t (Rf t *m crossm w) /\ vderiv vf t (Rf t *v a +v gravity) /\ vderiv pf t (vf t).

(** body rates from a raw sample: rotate into the body frame, subtract biases and
    the centripetal acceleration of the lever arm t *)
Definition rate (ip : imu_prop) (m : imu) (bg : V3) : V3 := ip_Rib ip *v i_w m -v bg.
Definition accel (ip : imu_prop) (m : imu) (bg ba : V3) : V3 :=
  ip_Rib ip *v i_a m -v ba -v cross (rate ip m bg) (cross (rate ip m bg) (ip_t ip)).
Definition gbias (s : rstate) : V3 := getV3 (sTheta s) 0 0.
Definition abias (s : rstate) : V3 := getV3 (sTheta s) 3 0.

(** matrix-valued derivative *)
Definition matderiv (n : nat) (f : R -> mat) (t : R) (D : mat) : Prop :=
  nr D = n /\ nc D = n /\ nr (f t) = n /\ nc (f t) = n /\
  forall i j, (i < n)%nat -> (j < n)%nat -> derivable_pt_lim (fun x => ent (f x) i j) t (ent D i j).

(** A matrix given by its 3x3 blocks. *)
Definition of_blocks (n : nat) (f : nat -> nat -> M3) : mat :=
  mk (3 * n) (3 * n) (fun r c => mget (f (r / 3) (c / 3))%nat (r mod 3) (c mod 3)).
(** The linearised left-invariant error dynamics: blocks rotation, velocity,
    position, contacts 3..K, gyro bias K+1, accelerometer bias K+2:
      r' = -[w]r - bg,  v' = -[a]r - [w]v - ba,  p' = v - [w]p,  d' = -[w]d. *)
Definition left_dynamics (K : nat) (w a : V3) : mat :=
  of_blocks (3 + K) (fun i j =>
    if Nat.eqb i j && (i <=? K)%nat then mneg (crossm w)
    else match i with
      | 0 => if Nat.eqb j (K + 1) then mneg mid else mzero
      | 1 => if Nat.eqb j 0 then mneg (crossm a) else if Nat.eqb j (K + 2) then mneg mid else mzero
      | 2 => if Nat.eqb j 1 then mid else mzero
      | _ => mzero end%nat).

(** The invariant error of an estimate X against a reference whose inverse is Y:
    X Y for the right-invariant convention, Y X for the left-invariant one. *)
Definition inv_error (e : error_type) (X Y : mat) : mat :=
  match e with RightInvariant => X *M Y | LeftInvariant => Y *M X end.
(** the rows and columns that are not biases *)
Definition group_part (K : nat) (M : mat) : mat := sub M 0 0 (3 + 3 * K) (3 + 3 * K).

(** time stamps never go backwards, starting from t *)
Fixpoint nondec (t : R) (l : list R) : Prop := match l with [] => True | x :: l => t <= x /\ nondec x l end.

(** the same sensor object with the other error convention *)
Definition set_err (ip : imu_prop) (e : error_type) : imu_prop :=
  mkIP (ip_queue ip) e (ip_static ip) (ip_init_size ip) (ip_use_ori ip) (ip_Rib ip) (ip_gyro_cov ip) (ip_accel_cov ip)
    (ip_gyro_bias_cov ip) (ip_accel_bias_cov ip) (ip_bg0 ip) (ip_ba0 ip) (ip_enable ip) (ip_t ip)
    (ip_bias_init ip) (ip_vec ip) (ip_prev ip).
(** a state whose covariance is re-expressed from left- to right-invariant coordinates *)
Definition as_right (K : nat) (s : rstate) : rstate :=
  set_P s (L2R K (sX s) *M sP s *M mT (L2R K (sX s))).

(** ** Calibration *)
(** componentwise arithmetic mean *)
Definition is_mean (v : V3) (l : list V3) : Prop :=
  l <> [] /\ forall c, (c < 3)%nat -> vget v c = fold_right Rplus 0 (map (fun u => vget u c) l) / INR (length l).
(** calibration polling: before each poll a batch of samples arrives; polling
    stops once the object reports that it is initialised *)
Fixpoint calibrate (ip : imu_prop) (batches : list (list imu)) : res imu_prop :=
  match batches with
  | [] => Ok ip
  | b :: bs =>
    let ip := set_queue ip (ip_queue ip ++ b) in
    let* ip := if ip_bias_init ip then Ok ip else InitImuBias ip in
    calibrate ip bs
  end.
(** the bias-free value of a sample of a robot at rest: the turn rate is all bias;
    the specific force should be gravity seen from the body orientation B *)
Definition rest_gyro (ip : imu_prop) (m : imu) : V3 := ip_Rib ip *v i_w m.
Definition rest_accel (ip : imu_prop) (B : M3) (m : imu) : V3 :=
  ip_Rib ip *v i_a m -v cross (rest_gyro ip m) (cross (rest_gyro ip m) (ip_t ip)) +v mtr B *v gravity.
Definition rest_orientation (ip : imu_prop) (m : imu) : M3 :=
  if ip_use_ori ip then ip_Rib ip *m toRotationMatrix (i_q m) else mid.
(** the orientation the state is initialised with *)
Definition start_orientation (ip : imu_prop) (m : imu) : M3 := if ip_use_ori ip then toRotationMatrix (i_q m) else mid.
(** the acceleration left over after calibration at rest, in the world frame: the
    calibration subtracts a centripetal term computed from the raw (all-bias) turn
    rate and removes gravity seen from rest_orientation, not start_orientation *)
Definition rest_drift (ip : imu_prop) (m : imu) : V3 :=
  start_orientation ip m *v (cross (rest_gyro ip m) (cross (rest_gyro ip m) (ip_t ip)) -v mtr (rest_orientation ip m) *v gravity) +v gravity.
(** two samples with the same readings *)
Definition same_reading (m0 m : imu) : Prop := i_w m = i_w m0 /\ i_a m = i_a m0 /\ i_q m = i_q m0.

(** ** Quaternions *)
Definition qnorm2 (q : quat) : R := qw q ^ 2 + qx q ^ 2 + qy q ^ 2 + qz q ^ 2.
Inductive imu_op := SetQuat (w x y z : R) | SetGyro (x y z : R) | SetAcc (x y z : R) | SetStamp (t : R).
Definition imu_do (m : imu) (o : imu_op) : imu :=
  match o with
  | SetQuat w x y z => fst (set_quaternion m w x y z)
  | SetGyro x y z => set_angular_velocity m x y z
  | SetAcc x y z => set_lin_acc m x y z
  | SetStamp t => set_stamp m t
  end.
