(** Model of src/imu_filter/imu_ang_vel_ekf.cpp (class ImuAngVelEKF).  Log streams are
    not modelled.  The lazily evaluated Eigen expressions S_inv and K (declared auto) are
    evaluated before anything they refer to changes, so they are modelled as values. *)
From Coq Require Import Reals ZArith List Bool Arith Lia.
From Verif Require Import Res Vec3 Mat MatInv LieGroup RobotState Imu Propagation.
Import ListNotations.
Local Open Scope R_scope.

(** include/drift/measurement/angular_velocity.h: stamp and rate *)
Record avmeas := mkAV { av_t : R; av_w : V3 }.
(** include/drift/imu_filter/imu_ang_vel_ekf.h: PROPAGATION_METHOD, CORRECTION_METHOD;
    the cast of an int (imu_ang_vel_ekf.cpp:63-66) may give another value *)
Inductive prop_method := GYRO | RANDOM_WALK.
Inductive corr_method := SINGLE_IMU_PLUS_ANG_VEL | SINGLE_IMU | MULTI_IMU | ANG_VEL | OTHER_METHOD.
Definition method_of (z : Z) : corr_method :=
  match z with 0 => SINGLE_IMU_PLUS_ANG_VEL | 1 => SINGLE_IMU | 2 => MULTI_IMU | 3 => ANG_VEL | _ => OTHER_METHOD end%Z.

(** imu_ang_vel_ekf.h:290-367.  [None] for a buffer = null pointer.  bg0_, ba0_, the
    covariances of lines 325-328, enable_imu_bias_update_, use_imu_ori_est_to_init_,
    bias_initialized_ and init_vec_ are never used. *)
Record gfilt := mkGF {
  gf_gyro : option (list imu);      (* gyro_prop_data_buffer_ptr_ *)
  gf_imu : option (list imu);       (* imu_data_buffer_ptr_ *)
  gf_imus : list (list imu);        (* imu_data_buffer_ptrs_ *)
  gf_av : option (list avmeas);     (* ang_vel_data_buffer_ptr_ *)
  gf_out : list imu;                (* filtered_imu_data_buffer_ptr_ *)
  gf_last : R;                      (* last_propagate_time_ *)
  gf_thr : R;                       (* t_thres_ *)
  gf_pm : prop_method;
  gf_cm : corr_method;
  gf_nimu : nat; gf_nav : nat;
  gf_prev : V3;                     (* prev_ang_vel_measurement_ *)
  gf_Rinv : M3;                     (* R_imu2body_inverse_ *)
  gf_static : bool;
  gf_size : option Z;               (* init_bias_size_; None = uninitialised *)
  gf_vec : list V3;                 (* bias_init_vec_ *)
  gf_init : bool;                   (* filter_initialized_ *)
  gf_latest : option imu;           (* latest_imu_measurement_ *)
  gf_x : mat;                       (* ang_vel_and_bias_est_ *)
  gf_P : mat; gf_Q : mat;
  gf_Ri : M3; gf_Re : M3;           (* ang_vel_imu_R_, ang_vel_enc_R_ *)
  gf_Hi : mat; gf_He : mat }.

(** yaml: [None] = key absent; absent list entries of the bias prior throw, not modelled *)
Record gf_cfg := mkGCfg {
  q_quat : option quat; q_flat : option bool; q_thr : option R; q_method : option Z; q_static : option bool; q_size : option Z;
  q_bias : option V3; q_std : option R; q_bias_std : option R; q_fstd : option R; q_fbias_std : option R; q_imu_std : option R; q_enc_std : option R }.

(** imu_ang_vel_ekf.cpp:107-119 (226-240) and 103-135: diagonal 6x6 covariance with two scalar blocks *)
Definition diag_cov (a b : R) : mat :=
  mk 6 6 (fun i j => if Nat.eqb i j then (if Nat.ltb i 3 then a * a else b * b) else 0).
(** imu_ang_vel_ekf.cpp:140-153 (258-270); for flat_ground = true H_enc_ is set block by block *)
Definition H_imu (flat : bool) : mat :=
  mk 3 6 (fun i j => if flat then (if Nat.eqb j i then 1 else if Nat.eqb j (3 + i) then 1 else 0)
    else if (Nat.eqb i 2 && (Nat.eqb j 2 || Nat.eqb j 5))%bool then 1 else 0).
Definition H_enc (flat : bool) : mat :=
  mk 3 6 (fun i j => if flat then (if Nat.eqb j i then 1 else 0) else if (Nat.eqb i 2 && Nat.eqb j 2)%bool then 1 else 0).
(** a 6-vector from two 3-vectors *)
Definition vec6 (a b : V3) : mat := mk 6 1 (fun i _ => if Nat.ltb i 3 then vget a i else vget b (i - 3)).
Definition head3 (x : mat) : V3 := getV3 x 0 0.
Definition tail3 (x : mat) : V3 := getV3 x 3 0.

(** Common part of the two constructors, imu_ang_vel_ekf.cpp:26-170 and 172-323.  The
    first one leaves init_bias_size_ uninitialised. *)
Definition gf_make (imu : option (list imu)) (av : option (list avmeas)) (size : option Z) (g : gf_cfg) : gfilt :=
  let st := dflt (q_static g) false in
  let flat := dflt (q_flat g) false in
  let std o := dflt o (1 / 100) in
  let mstd o := dflt o (1 / 10) in
  mkGF None imu [] av [] (- 1) (dflt (q_thr g) (3 / 100)) RANDOM_WALK (method_of (dflt (q_method g) 0%Z)) 0 0
    vzero (mtr (toRotationMatrix (dflt (q_quat g) (mkQ 1 0 0 0)))) st size [] false None
    (if st then mO 6 1 else vec6 vzero (dflt (q_bias g) vzero))
    (diag_cov (std (q_std g)) (std (q_bias_std g))) (diag_cov (std (q_fstd g)) (std (q_fbias_std g)))
    ((mstd (q_imu_std g) * mstd (q_imu_std g)) *ms mid) ((mstd (q_enc_std g) * mstd (q_enc_std g)) *ms mid)
    (H_imu flat) (H_enc flat).
(** imu_ang_vel_ekf.cpp:26-170 *)
Definition ImuAngVelEKF_buffers (imu : list imu) (av : list avmeas) (g : gf_cfg) : gfilt := gf_make (Some imu) (Some av) None g.
(** imu_ang_vel_ekf.cpp:172-323 *)
Definition ImuAngVelEKF_config (g : gf_cfg) : gfilt := gf_make None None (Some (dflt (q_size g) 250%Z)) g.

(** field updates *)
Definition gf_queues (g : gfilt) (gy : option (list imu)) (im : option (list imu)) (ims : list (list imu)) (av : option (list avmeas)) : gfilt :=
  mkGF gy im ims av (gf_out g) (gf_last g) (gf_thr g) (gf_pm g) (gf_cm g) (gf_nimu g) (gf_nav g) (gf_prev g) (gf_Rinv g) (gf_static g) (gf_size g) (gf_vec g)
    (gf_init g) (gf_latest g) (gf_x g) (gf_P g) (gf_Q g) (gf_Ri g) (gf_Re g) (gf_Hi g) (gf_He g).
Definition gf_set_gyro (g : gfilt) (q : list imu) : gfilt := gf_queues g (Some q) (gf_imu g) (gf_imus g) (gf_av g).
Definition gf_set_imu (g : gfilt) (q : list imu) : gfilt := gf_queues g (gf_gyro g) (Some q) (gf_imus g) (gf_av g).
Definition gf_set_imus (g : gfilt) (qs : list (list imu)) : gfilt := gf_queues g (gf_gyro g) (gf_imu g) qs (gf_av g).
Definition gf_set_av (g : gfilt) (q : list avmeas) : gfilt := gf_queues g (gf_gyro g) (gf_imu g) (gf_imus g) (Some q).
Definition gf_set_out (g : gfilt) (o : list imu) : gfilt :=
  mkGF (gf_gyro g) (gf_imu g) (gf_imus g) (gf_av g) o (gf_last g) (gf_thr g) (gf_pm g) (gf_cm g) (gf_nimu g) (gf_nav g) (gf_prev g) (gf_Rinv g) (gf_static g) (gf_size g) (gf_vec g)
    (gf_init g) (gf_latest g) (gf_x g) (gf_P g) (gf_Q g) (gf_Ri g) (gf_Re g) (gf_Hi g) (gf_He g).
Definition gf_set_est (g : gfilt) (x P : mat) : gfilt :=
  mkGF (gf_gyro g) (gf_imu g) (gf_imus g) (gf_av g) (gf_out g) (gf_last g) (gf_thr g) (gf_pm g) (gf_cm g) (gf_nimu g) (gf_nav g) (gf_prev g) (gf_Rinv g) (gf_static g) (gf_size g) (gf_vec g)
    (gf_init g) (gf_latest g) x P (gf_Q g) (gf_Ri g) (gf_Re g) (gf_Hi g) (gf_He g).
Definition gf_set_prev (g : gfilt) (last : R) (w : V3) (latest : option imu) : gfilt :=
  mkGF (gf_gyro g) (gf_imu g) (gf_imus g) (gf_av g) (gf_out g) last (gf_thr g) (gf_pm g) (gf_cm g) (gf_nimu g) (gf_nav g) w (gf_Rinv g) (gf_static g) (gf_size g) (gf_vec g)
    (gf_init g) latest (gf_x g) (gf_P g) (gf_Q g) (gf_Ri g) (gf_Re g) (gf_Hi g) (gf_He g).
Definition gf_set_vec (g : gfilt) (v : list V3) : gfilt :=
  mkGF (gf_gyro g) (gf_imu g) (gf_imus g) (gf_av g) (gf_out g) (gf_last g) (gf_thr g) (gf_pm g) (gf_cm g) (gf_nimu g) (gf_nav g) (gf_prev g) (gf_Rinv g) (gf_static g) (gf_size g) v
    (gf_init g) (gf_latest g) (gf_x g) (gf_P g) (gf_Q g) (gf_Ri g) (gf_Re g) (gf_Hi g) (gf_He g).
Definition gf_mode (g : gfilt) (pm : prop_method) (cm : corr_method) (ni na : nat) (b : bool) : gfilt :=
  mkGF (gf_gyro g) (gf_imu g) (gf_imus g) (gf_av g) (gf_out g) (gf_last g) (gf_thr g) pm cm ni na (gf_prev g) (gf_Rinv g) (gf_static g) (gf_size g) (gf_vec g)
    b (gf_latest g) (gf_x g) (gf_P g) (gf_Q g) (gf_Ri g) (gf_Re g) (gf_Hi g) (gf_He g).

(** imu_ang_vel_ekf.cpp:336-342 *)
Definition add_gyro_propagate (g : gfilt) (q : list imu) : gfilt :=
  gf_mode (gf_set_gyro g q) GYRO (gf_cm g) (gf_nimu g) (gf_nav g) (gf_init g).
(** imu_ang_vel_ekf.cpp:344-357 *)
Definition add_imu_correction (g : gfilt) (q : list imu) : gfilt :=
  let n := S (gf_nimu g) in
  let g := gf_mode g (gf_pm g) (gf_cm g) n (gf_nav g) (gf_init g) in
  if Nat.eqb n 1 then gf_set_imu g q else gf_set_imus g (gf_imus g ++ [q]).
(** imu_ang_vel_ekf.cpp:359-365 *)
Definition add_ang_vel_correction (g : gfilt) (q : list avmeas) : gfilt :=
  gf_set_av (gf_mode g (gf_pm g) (gf_cm g) (gf_nimu g) (S (gf_nav g)) (gf_init g)) q.

(** imu_ang_vel_ekf.cpp:723-768 [GyroPropagate] *)
Definition GyroPropagate (g : gfilt) : res gfilt :=
  let* q := of_opt (gf_gyro g) NullDeref in
  match q with
  | [] => Ok g
  | m :: q =>
    let g := gf_set_gyro g q in
    let latest := match gf_cm g with ANG_VEL => Some m | _ => gf_latest g end in
    let diff := vec6 (i_w m -v gf_prev g) vzero in
    let g := gf_set_prev g (i_t m) (i_w m) latest in
    let* x := cadd diff (gf_x g) in
    let* P := cadd (gf_P g) (gf_Q g) in
    Ok (gf_set_est g x P)
  end.
(** imu_ang_vel_ekf.cpp:770-776 [RandomWalkPropagate] *)
Definition RandomWalkPropagate (g : gfilt) : res gfilt :=
  let* P := cadd (gf_P g) (gf_Q g) in Ok (gf_set_est g (gf_x g) P).

(** imu_ang_vel_ekf.cpp:780-787 and 817-827: the Kalman update shared by both corrections *)
Definition ang_vel_update (x P H : mat) (N : M3) (y : V3) : res (mat * mat) :=
  let* Hx := cmul H x in
  let* z := csub (ofV3 y) Hx in
  let* HP := cmul H P in
  let* HPH := cmul HP (mT H) in
  let* Sm := cadd HPH (ofM3 N) in
  let* Si := cinv Sm in
  let* PH := cmul P (mT H) in
  let* K := cmul PH Si in
  let* Kz := cmul K z in
  let* x' := cadd x Kz in
  let* KH := cmul K H in
  let* IKH := csub (meye 6) KH in
  let* P' := cmul IKH P in
  Ok (x', P').
(** imu_ang_vel_ekf.cpp:778-812 [AngVelFilterCorrectIMU] *)
Definition AngVelFilterCorrectIMU (g : gfilt) (m : imu) : res (gfilt * imu) :=
  let* '(x, P) := ang_vel_update (gf_x g) (gf_P g) (gf_Hi g) (gf_Ri g) (i_w m) in
  Ok (gf_set_est g x P, mkImu (i_t m) (i_q m) (head3 x) (i_a m)).
(** imu_ang_vel_ekf.cpp:814-853 [AngVelFilterCorrectEncoder] *)
Definition AngVelFilterCorrectEncoder (g : gfilt) (m : imu) (a : avmeas) : res (gfilt * imu) :=
  let* '(x, P) := ang_vel_update (gf_x g) (gf_P g) (gf_He g) (gf_Re g) (gf_Rinv g *v av_w a) in
  Ok (gf_set_est g x P, mkImu (av_t a) (i_q m) (head3 x) (i_a m)).
Definition gf_push (p : gfilt * imu) : gfilt := gf_set_out (fst p) (gf_out (fst p) ++ [snd p]).

(** "last_propagate_time_ == -1 || last_propagate_time_ - t <= t_thres_" *)
Definition in_time (g : gfilt) (t : R) : bool :=
  if Req_EM_T (gf_last g) (- 1) then true else if Rle_dec (gf_last g - t) (gf_thr g) then true else false.

(** std::queue::pop *)
Definition pop {A} (q : list A) : res (list A) := match q with [] => Fail EmptyQueue | _ :: q => Ok q end.
(** imu_ang_vel_ekf.cpp:870-891 [clear]: the buffers of gyro propagation and of multiple
    IMUs are not touched, nor is the estimate *)
Definition ImuFilter_clear (g : gfilt) : res gfilt :=
  let* _ := of_opt (gf_imu g) NullDeref in
  let* _ := of_opt (gf_av g) NullDeref in
  Ok (gf_set_out (gf_set_av (gf_set_imu g []) []) []).
(** another thread's clear(), if there is one *)
Definition maybe_clear (clr : bool) (g : gfilt) : res gfilt := if clr then ImuFilter_clear g else Ok g.

(** imu_ang_vel_ekf.cpp:545-572 [SingleImuCorrection].  [clr] = another thread calls
    clear() between the critical section that pops the sample and the one that pushes the
    result (or after the only critical section). *)
Definition SingleImuCorrection (g : gfilt) (clr : bool) : res gfilt :=
  let* q := of_opt (gf_imu g) NullDeref in
  match q with
  | [] => maybe_clear clr g
  | m :: q =>
    if Rle_dec (gf_last g - i_t m) (gf_thr g) then
      if Rle_dec (i_t m) (gf_last g) then
        let* g := maybe_clear clr (gf_set_imu g q) in
        let* p := AngVelFilterCorrectIMU g m in Ok (gf_push p)
      else maybe_clear clr g
    else maybe_clear clr g
  end.

(** imu_ang_vel_ekf.cpp:574-603 [MultiImuCorrection]: [fused] is the pointer fused_ang_imu,
    kept from one buffer to the next *)
Fixpoint multi_loop (g : gfilt) (fused : option imu) (done todo : list (list imu)) : res gfilt :=
  match todo with
  | [] => Ok (gf_set_imus g done)
  | [] :: qs => multi_loop g fused (done ++ [[]]) qs
  | (m :: q) :: qs =>
    let* '(g, fused) :=
      if in_time g (i_t m) then let* '(g, f) := AngVelFilterCorrectIMU g m in Ok (g, Some f) else Ok (g, fused) in
    let g := match fused with Some f => gf_set_out g (gf_out g ++ [f]) | None => g end in
    multi_loop g fused (done ++ [q]) qs
  end.
Definition MultiImuCorrection (g : gfilt) : res gfilt := multi_loop g None [] (gf_imus g).

(** imu_ang_vel_ekf.cpp:605-678 [SingleImuAngVelCorrection].  The fronts are read in one
    critical section each and popped in a later one; [clr] = another thread calls clear()
    in between.  Samples arriving in between go to the back and make no difference. *)
Definition SingleImuAngVelCorrection (g : gfilt) (clr : bool) : res gfilt :=
  let* qi := of_opt (gf_imu g) NullDeref in
  let* qa := of_opt (gf_av g) NullDeref in
  let im := hd_error qi in
  let av := hd_error qa in
  let '(im, av) :=
    match im, av with
    | Some m, Some a => if Rle_dec (i_t m) (av_t a) then (Some m, None) else (None, Some a)
    | _, _ => (im, av)
    end in
  let* g := maybe_clear clr g in
  match im, av with
  | Some m, _ =>
    let g := gf_set_prev g (gf_last g) (gf_prev g) (Some m) in
    let* g := if in_time g (i_t m) then let* p := AngVelFilterCorrectIMU g m in Ok (gf_push p) else Ok g in
    let* q := of_opt (gf_imu g) NullDeref in
    let* q := pop q in
    Ok (gf_set_imu g q)
  | None, Some a =>
    let* g :=
      match gf_latest g with
      | None => Ok g
      | Some m => if in_time g (av_t a) then let* p := AngVelFilterCorrectEncoder g m a in Ok (gf_push p) else Ok g
      end in
    let* q := of_opt (gf_av g) NullDeref in
    let* q := pop q in
    Ok (gf_set_av g q)
  | None, None => Ok g
  end.

(** imu_ang_vel_ekf.cpp:680-713 [AngVelCorrection] *)
Definition AngVelCorrection (g : gfilt) (clr : bool) : res gfilt :=
  let* qa := of_opt (gf_av g) NullDeref in
  match qa with
  | [] => maybe_clear clr g
  | a :: _ =>
    let* g := maybe_clear clr g in
    let* g := match gf_latest g with None => Ok g | Some m => let* p := AngVelFilterCorrectEncoder g m a in Ok (gf_push p) end in
    let* q := of_opt (gf_av g) NullDeref in
    let* q := pop q in
    Ok (gf_set_av g q)
  end.

(** imu_ang_vel_ekf.cpp:408-425: choice of the correction method from the numbers of sensors *)
Definition pick_method (g : gfilt) : corr_method :=
  match gf_nimu g, gf_nav g with
  | 0, 1 => ANG_VEL
  | 1, 0 => SINGLE_IMU
  | 1, 1 => SINGLE_IMU_PLUS_ANG_VEL
  | S (S _), 0 => MULTI_IMU
  | _, _ => gf_cm g
  end%nat.
(** "bias_init_vec_.size() < init_bias_size_": the int is converted to size_t *)
Definition vec_short (n : nat) (size : Z) : bool := (size <? 0)%Z || (Z.of_nat n <? size)%Z.
Definition average (l : list V3) : res V3 :=
  match l with [] => Fail DivZero | _ => Ok ((1 / INR (length l)) *s fold_left vadd l vzero) end.
(** imu_ang_vel_ekf.cpp:468-543 [InitializeFilter] *)
Definition InitializeFilter (g : gfilt) : res gfilt :=
  let* size := of_opt (gf_size g) BadRead in
  if (vec_short (length (gf_vec g)) size && gf_static g)%bool then
    let* q := of_opt (gf_imu g) NullDeref in
    match q with
    | [] => Ok g
    | m :: q =>
      let g := gf_set_vec (gf_set_imu g q) (gf_vec g ++ [i_w m]) in
      match gf_pm g with
      | RANDOM_WALK => Ok g
      | GYRO =>
        let* qg := of_opt (gf_gyro g) NullDeref in
        match qg with
        | [] => Ok g
        | m0 :: qg => Ok (gf_set_prev (gf_set_gyro g qg) (gf_last g) (i_w m0) (gf_latest g))
        end
      end
    end
  else if gf_static g then
    let* avg := average (gf_vec g) in
    let g := gf_set_est g (vec6 vzero avg) (gf_P g) in
    let* g := match gf_pm g with GYRO => let* _ := of_opt (gf_gyro g) NullDeref in Ok (gf_set_gyro g []) | RANDOM_WALK => Ok g end in
    let* g := match gf_cm g with
      | SINGLE_IMU_PLUS_ANG_VEL | SINGLE_IMU => let* _ := of_opt (gf_imu g) NullDeref in Ok (gf_set_imu g [])
      | MULTI_IMU => Ok (gf_set_imus g (map (fun _ => []) (gf_imus g)))
      | _ => Ok g
      end in
    let* g := match gf_cm g with
      | SINGLE_IMU_PLUS_ANG_VEL | ANG_VEL => let* _ := of_opt (gf_av g) NullDeref in Ok (gf_set_av g [])
      | _ => Ok g
      end in
    Ok (gf_mode g (gf_pm g) (gf_cm g) (gf_nimu g) (gf_nav g) true)
  else Ok (gf_mode g (gf_pm g) (gf_cm g) (gf_nimu g) (gf_nav g) true).

(** imu_ang_vel_ekf.cpp:381-432 [RunOnce] *)
Definition ImuFilter_RunOnce (g : gfilt) (clr : bool) : res gfilt :=
  if gf_init g then
    let* g := match gf_pm g with GYRO => GyroPropagate g | RANDOM_WALK => RandomWalkPropagate g end in
    match gf_cm g with
    | SINGLE_IMU_PLUS_ANG_VEL => SingleImuAngVelCorrection g clr
    | SINGLE_IMU => SingleImuCorrection g clr
    | MULTI_IMU => let* g := maybe_clear clr g in MultiImuCorrection g
    | ANG_VEL => AngVelCorrection g clr
    | OTHER_METHOD => maybe_clear clr g
    end
  else let* g := maybe_clear clr g in InitializeFilter (gf_mode g (gf_pm g) (pick_method g) (gf_nimu g) (gf_nav g) (gf_init g)).

(** ** Histories *)
Inductive gop :=
| GGyro (m : imu) | GImu (m : imu) | GImuN (i : nat) (m : imu) | GAv (m : avmeas)   (** a sample is delivered *)
| GRun                    (** one iteration of the filter thread *)
| GRunClr                 (** ... hit by another thread's clear() *)
| GClear                  (** clear() between iterations *)
| GPop.                   (** the estimator takes a filtered sample *)
Fixpoint push_nth {A} (l : list (list A)) (i : nat) (m : A) : list (list A) :=
  match l, i with
  | [], _ => []
  | q :: l, O => (q ++ [m]) :: l
  | q :: l, S i => q :: push_nth l i m
  end.
Definition gf_step (g : gfilt) (o : gop) : res gfilt :=
  match o with
  | GGyro m => let* q := of_opt (gf_gyro g) NullDeref in Ok (gf_set_gyro g (q ++ [m]))
  | GImu m => let* q := of_opt (gf_imu g) NullDeref in Ok (gf_set_imu g (q ++ [m]))
  | GImuN i m => Ok (gf_set_imus g (push_nth (gf_imus g) i m))
  | GAv m => let* q := of_opt (gf_av g) NullDeref in Ok (gf_set_av g (q ++ [m]))
  | GRun => ImuFilter_RunOnce g false
  | GRunClr => ImuFilter_RunOnce g true
  | GClear => ImuFilter_clear g
  | GPop => Ok (gf_set_out g (tl (gf_out g)))
  end.
Definition gf_run (g : gfilt) (os : list gop) : res gfilt := foldM gf_step g os.
