(** Model of src/filter/inekf/propagation/imu_propagation.cpp and the parts of
    src/filter/base_propagation.cpp it uses. *)
From Coq Require Import Reals ZArith List Bool Lia.
From Verif Require Import Res Vec3 Mat MatInv LieGroup RobotState Inekf Imu.
Import ListNotations.
Local Open Scope R_scope.

(** src/filter/base_propagation.cpp:22, 31 *)
Definition g_ : V3 := mkV 0 0 (- (98 / 10)).

(** The object: include/drift/filter/inekf/propagation/imu_propagation.h:190-236.
    [ip_queue] is the shared sensor buffer (oldest first). *)
Record imu_prop := mkIP {
  ip_queue : list imu;
  ip_err : error_type;
  ip_static : bool;          (* static_bias_initialization_ *)
  ip_init_size : Z;          (* init_bias_size_ *)
  ip_use_ori : bool;         (* use_imu_ori_to_init_ *)
  ip_Rib : M3;               (* R_imu2body_ *)
  ip_gyro_cov : M3;
  ip_accel_cov : M3;
  ip_gyro_bias_cov : M3;
  ip_accel_bias_cov : M3;
  ip_bg0 : V3;
  ip_ba0 : V3;
  ip_enable : bool;          (* enable_imu_bias_update_ *)
  ip_t : V3;                 (* t_imu2body_ *)
  ip_bias_init : bool;       (* bias_initialized_ *)
  ip_vec : list (V3 * V3);   (* bias_init_vec_ *)
  ip_prev : option imu }.    (* prev_imu_measurement_ *)

(** The yaml configuration; [None] = key absent.  A list shorter than the indices
    read from it would be undefined behaviour; the model takes fixed-size values. *)
Record imu_cfg := mkICfg {
  c_static : option bool; c_init_size : option Z; c_use_ori : option bool;
  c_quat : option quat; c_gyro_std : option R; c_accel_std : option R;
  c_gyro_bias_std : option R; c_accel_bias_std : option R;
  c_bg : option V3; c_ba : option V3; c_enable : option bool; c_trans : option V3 }.
Definition dflt {A} (o : option A) (d : A) : A := match o with Some a => a | None => d end.

(** imu_propagation.cpp:31-119 [ImuPropagation::ImuPropagation] *)
Definition ImuPropagation (queue : list imu) (e : error_type) (c : imu_cfg) : imu_prop :=
  let gyro_std := dflt (c_gyro_std c) (1 / 10) in
  let accel_std := dflt (c_accel_std c) (1 / 10) in
  let gyro_bias_std := dflt (c_gyro_bias_std c) (1 / 10) in
  let accel_bias_std := dflt (c_accel_bias_std c) (1 / 10) in
  mkIP queue e (dflt (c_static c) true) (dflt (c_init_size c) 0%Z) (dflt (c_use_ori c) false)
    (toRotationMatrix (dflt (c_quat c) (mkQ 1 0 0 0)))
    ((gyro_std * gyro_std) *ms mid) ((accel_std * accel_std) *ms mid)
    ((gyro_bias_std * gyro_bias_std) *ms mid) ((accel_bias_std * accel_bias_std) *ms mid)
    (dflt (c_bg c) vzero) (dflt (c_ba c) vzero) (dflt (c_enable c) false) (dflt (c_trans c) vzero)
    false [] None.

Definition set_queue (p : imu_prop) (q : list imu) : imu_prop :=
  mkIP q (ip_err p) (ip_static p) (ip_init_size p) (ip_use_ori p) (ip_Rib p) (ip_gyro_cov p) (ip_accel_cov p)
    (ip_gyro_bias_cov p) (ip_accel_bias_cov p) (ip_bg0 p) (ip_ba0 p) (ip_enable p) (ip_t p)
    (ip_bias_init p) (ip_vec p) (ip_prev p).
Definition set_prev (p : imu_prop) (m : imu) : imu_prop :=
  mkIP (ip_queue p) (ip_err p) (ip_static p) (ip_init_size p) (ip_use_ori p) (ip_Rib p) (ip_gyro_cov p) (ip_accel_cov p)
    (ip_gyro_bias_cov p) (ip_accel_bias_cov p) (ip_bg0 p) (ip_ba0 p) (ip_enable p) (ip_t p)
    (ip_bias_init p) (ip_vec p) (Some m).
Definition set_vec (p : imu_prop) (v : list (V3 * V3)) : imu_prop :=
  mkIP (ip_queue p) (ip_err p) (ip_static p) (ip_init_size p) (ip_use_ori p) (ip_Rib p) (ip_gyro_cov p) (ip_accel_cov p)
    (ip_gyro_bias_cov p) (ip_accel_bias_cov p) (ip_bg0 p) (ip_ba0 p) (ip_enable p) (ip_t p)
    (ip_bias_init p) v (ip_prev p).
Definition set_bias (p : imu_prop) (bg ba : V3) : imu_prop :=
  mkIP (ip_queue p) (ip_err p) (ip_static p) (ip_init_size p) (ip_use_ori p) (ip_Rib p) (ip_gyro_cov p) (ip_accel_cov p)
    (ip_gyro_bias_cov p) (ip_accel_bias_cov p) bg ba (ip_enable p) (ip_t p)
    true (ip_vec p) (ip_prev p).

(** imu_propagation.cpp:266-312: the bias blocks for the left-invariant case.
    For theta = 0 the first expressions divide by zero in C++ (inf/NaN); they
    are overwritten by lines 309-312, as here.  [1 / 2] and [1 / 6] are integer
    divisions.  A scalar written on the right of a matrix in the C++ is on its
    left here. *)
Definition Phi25L_of (w a : V3) (dt : R) (G0t G2t : M3) : M3 :=
  let ax := skew a in let wx := skew w in let wx2 := wx *m wx in
  let dt2 := dt * dt in
  let theta := vnorm w in let theta2 := theta * theta in let theta3 := theta2 * theta in
  let theta4 := theta3 * theta in let theta5 := theta4 * theta in let theta6 := theta5 * theta in
  let thetadt := theta * dt in let thetadt2 := thetadt * thetadt in
  let s := sin thetadt in let c := cos thetadt in
  let s2 := sin (2 * thetadt) in let c2 := cos (2 * thetadt) in
  let tc := thetadt * c in let ts := thetadt * s in
  if Rlt_dec theta (1 / 1000000) then (IZR (1 / 2)%Z * dt2) *ms ax else
  G0t *m (dt2 *ms (ax *m G2t)
    +m ((s - tc) / theta3) *ms (wx *m ax)
    -m ((c2 - 4 * c + 3) / (4 * theta4)) *ms (wx *m ax *m wx)
    +m ((4 * s + s2 - 4 * tc - 2 * thetadt) / (4 * theta5)) *ms (wx *m ax *m wx2)
    +m ((thetadt2 - 2 * ts - 2 * c + 2) / (2 * theta4)) *ms (wx2 *m ax)
    -m ((6 * thetadt - 8 * s + s2) / (4 * theta5)) *ms (wx2 *m ax *m wx)
    +m ((2 * thetadt2 - 4 * ts - c2 + 1) / (4 * theta6)) *ms (wx2 *m ax *m wx2)).
Definition Phi35L_of (w a : V3) (dt : R) (G0t G3t : M3) : M3 :=
  let ax := skew a in let wx := skew w in let wx2 := wx *m wx in
  let dt2 := dt * dt in let dt3 := dt2 * dt in
  let theta := vnorm w in let theta2 := theta * theta in let theta3 := theta2 * theta in
  let theta4 := theta3 * theta in let theta5 := theta4 * theta in let theta6 := theta5 * theta in
  let theta7 := theta6 * theta in
  let thetadt := theta * dt in let thetadt2 := thetadt * thetadt in let thetadt3 := thetadt2 * thetadt in
  let s := sin thetadt in let c := cos thetadt in
  let s2 := sin (2 * thetadt) in let c2 := cos (2 * thetadt) in
  let tc := thetadt * c in let ts := thetadt * s in
  if Rlt_dec theta (1 / 1000000) then (IZR (1 / 6)%Z * dt3) *ms ax else
  G0t *m (dt3 *ms (ax *m G3t)
    -m ((ts + 2 * c - 2) / theta4) *ms (wx *m ax)
    -m ((6 * thetadt - 8 * s + s2) / (8 * theta5)) *ms (wx *m ax *m wx)
    -m ((2 * thetadt2 + 8 * ts + 16 * c + c2 - 17) / (8 * theta6)) *ms (wx *m ax *m wx2)
    +m ((thetadt3 + 6 * thetadt - 12 * s + 6 * tc) / (6 * theta5)) *ms (wx2 *m ax)
    -m ((6 * thetadt2 + 16 * c - c2 - 15) / (8 * theta6)) *ms (wx2 *m ax *m wx)
    +m ((4 * thetadt3 + 6 * thetadt - 24 * s - 3 * s2 + 24 * tc) / (24 * theta7)) *ms (wx2 *m ax *m wx2)).

(** imu_propagation.cpp:315-318, 341-342 etc.: which error the code treats as "left" *)
Definition left_like (k : state_kind) (e : error_type) : bool :=
  match k, e with
  | WorldCentric, LeftInvariant | BodyCentric, RightInvariant => true
  | _, _ => false
  end.

Definition putM (A : mat) (i j : nat) (M : M3) : res mat := cput A i j (ofM3 M).

(** imu_propagation.cpp:315-338 *)
Definition Phi_left (dX dP dT : nat) (enable : bool) (a : V3) (dt : R) (G0t G1 G1t G2 Phi25L Phi35L : M3) : res mat :=
  let dt2 := dt * dt in
  let Phi := meye dP in
  let* Phi := putM Phi 0 0 G0t in
  let* Phi := putM Phi 3 0 (dt *ms (mneg G0t *m skew (G1 *v a))) in
  let* Phi := putM Phi 6 0 (dt2 *ms (mneg G0t *m skew (G2 *v a))) in
  let* Phi := putM Phi 3 3 G0t in
  let* Phi := putM Phi 6 3 (dt *ms G0t) in
  let* Phi := putM Phi 6 6 G0t in
  let* Phi := foldM (fun Phi i => putM Phi ((i - 2) * 3) ((i - 2) * 3) G0t) Phi (seq 5 (dX - 5)) in
  let* k := idx (Z.of_nat dP - Z.of_nat dT) in
  if enable then
    let* Phi := putM Phi 0 k (dt *ms mneg G1t) in
    let* Phi := putM Phi 3 k Phi25L in
    let* Phi := putM Phi 6 k Phi35L in
    let* Phi := putM Phi 3 (k + 3) (dt *ms mneg G1t) in
    putM Phi 6 (k + 3) (dt2 *ms (mneg G0t *m G2))
  else
    cput Phi 0 k (mO dP dT).

(** imu_propagation.cpp:339-369 *)
Definition Phi_right (s : rstate) (enable : bool) (a : V3) (dt : R) (G0 G1 G2 Phi25L Phi35L : M3) : res mat :=
  let dX := dimX s in let dP := dimP s in let dT := dimTheta s in
  let dt2 := dt * dt in
  let gx := skew g_ in
  let* Rm := get_rotation s in
  let* v := get_velocity s in
  let* p := get_position s in
  let RG0 := Rm *m G0 in
  let RG1dt := dt *ms (Rm *m G1) in
  let RG2dt2 := dt2 *ms (Rm *m G2) in
  let Phi := meye dP in
  let* Phi := putM Phi 3 0 (dt *ms gx) in
  let* Phi := putM Phi 6 0 ((1 / 2 * dt2) *ms gx) in
  let* Phi := putM Phi 6 3 (dt *ms mid) in
  let* k := idx (Z.of_nat dP - Z.of_nat dT) in
  if enable then
    let* Phi := putM Phi 0 k (mneg RG1dt) in
    let* Phi := putM Phi 3 k (mneg (skew (v +v RG1dt *v a +v dt *s g_)) *m RG1dt +m RG0 *m Phi25L) in
    let* Phi := putM Phi 6 k (mneg (skew (p +v dt *s v +v RG2dt2 *v a +v (1 / 2 * dt2) *s g_)) *m RG1dt
                              +m RG0 *m Phi35L) in
    let* Phi := foldM (fun Phi i =>
        let* x := get_vector s i in
        putM Phi ((i - 2) * 3) k (mneg (skew x) *m RG1dt)) Phi (seq 5 (dX - 5)) in
    let* Phi := putM Phi 3 (k + 3) (mneg RG1dt) in
    putM Phi 6 (k + 3) (mneg RG2dt2)
  else
    cput Phi 0 k (mO dP dT).

(** imu_propagation.cpp:221-371 [StateTransitionMatrix] *)
Definition StateTransitionMatrix (ip : imu_prop) (w a : V3) (dt : R) (s : rstate) : res mat :=
  let phi := dt *s w in
  let* G0 := Gamma_SO3 phi 0 in
  let* G1 := Gamma_SO3 phi 1 in
  let* G2 := Gamma_SO3 phi 2 in
  let G0t := mtr G0 in
  let G1t := mtr G1 in
  let G2t := mtr G2 in
  let* G3t := Gamma_SO3 (vneg phi) 3 in
  let Phi25L := Phi25L_of w a dt G0t G2t in
  let Phi35L := Phi35L_of w a dt G0t G3t in
  if left_like (stype s) (ip_err ip)
  then Phi_left (dimX s) (dimP s) (dimTheta s) (ip_enable ip) a dt G0t G1 G1t G2 Phi25L Phi35L
  else Phi_right s (ip_enable ip) a dt G0 G1 G2 Phi25L Phi35L.

(** imu_propagation.cpp:374-413 [DiscreteNoiseMatrix] *)
Definition DiscreteNoiseMatrix (ip : imu_prop) (Phi : mat) (dt : R) (s : rstate) : res mat :=
  let dP := dimP s in let dT := dimTheta s in
  let* k := idx (Z.of_nat dP - Z.of_nat dT) in
  let* G :=
    if left_like (stype s) (ip_err ip) then Ok (meye dP)
    else
      let* X := get_world_X s in
      let* A := Adjoint_SEK3 X in
      let* _ := check ((nr A =? k) && (nc A =? k))%nat EigenAssert in
      cput (meye dP) 0 0 A in
  let Qc := sQc s in
  let* Qc := putM Qc 0 0 (ip_gyro_cov ip) in
  let* Qc := putM Qc 3 3 (ip_accel_cov ip) in
  let* Qc :=
    if ip_enable ip then
      let* Qc := putM Qc k k (ip_gyro_bias_cov ip) in
      putM Qc (k + 3) (k + 3) (ip_accel_bias_cov ip)
    else Ok Qc in
  let* PhiG := cmul Phi G in
  let* A := cmul PhiG Qc in
  let* A := cmul A (mT PhiG) in
  Ok (dt *S A).

(** imu_propagation.cpp:176-183: bias block decorrelated and set to the identity *)
Definition decorrelate_bias (dP dT : nat) (P : mat) : res mat :=
  let* k := idx (Z.of_nat dP - Z.of_nat dT) in
  let* P := cput P 0 k (mO k dT) in
  let* P := cput P k 0 (mO dT k) in
  cput P k k (meye dT).

(** imu_propagation.cpp:185-211: the mean.  In the body-centric branch line 200
    declares a new X_pred, so the outer one stays X. *)
Definition propagate_mean (s : rstate) (w a : V3) (dt : R) : res mat :=
  let* Rm := get_rotation s in
  let* v := get_velocity s in
  let* p := get_position s in
  let phi := dt *s w in
  let* G0 := Gamma_SO3 phi 0 in
  let* G1 := Gamma_SO3 phi 1 in
  let* G2 := Gamma_SO3 phi 2 in
  let X_pred := sX s in
  match stype s with
  | WorldCentric =>
    let* X_pred := cput X_pred 0 0 (ofM3 (Rm *m G0)) in
    let* X_pred := cput X_pred 0 3 (ofV3 (v +v dt *s (Rm *m G1 *v a +v g_))) in
    cput X_pred 0 4 (ofV3 (p +v dt *s v +v (dt * dt) *s (Rm *m G2 *v a +v (1 / 2) *s g_)))
  | BodyCentric => Ok X_pred
  end.

(** imu_propagation.cpp:149-161: rates and accelerations in the body frame *)
Definition body_rates (ip : imu_prop) (m : imu) (bg ba : V3) : V3 * V3 :=
  let w := ip_Rib ip *v i_w m -v bg in
  let a_compensate := cross w (cross w (ip_t ip)) in
  let a := ip_Rib ip *v i_a m -v ba -v a_compensate in
  (w, a).

(** imu_propagation.cpp:145-217: everything after the sample has been fetched *)
Definition propagate_with (ip : imu_prop) (m : imu) (s : rstate) : res rstate :=
  let* t0 := get_propagate_time s in
  let dt := i_t m - t0 in
  let s := set_time s (i_t m) in
  let s := set_propagate_time s (i_t m) in
  let* bg := get_gyroscope_bias s in
  let* ba := get_accelerometer_bias s in
  let '(w, a) := body_rates ip m bg ba in
  let* _ := get_Xinv s in
  let* Phi := StateTransitionMatrix ip w a dt s in
  let* Qd := DiscreteNoiseMatrix ip Phi dt s in
  let* A := cmul Phi (sP s) in
  let* A := cmul A (mT Phi) in
  let* P_pred := cadd A Qd in
  let* P_pred := if ip_enable ip then Ok P_pred else decorrelate_bias (dimP s) (dimTheta s) P_pred in
  let* X_pred := propagate_mean s w a dt in
  let s := set_X s X_pred in
  Ok (set_P s P_pred).

(** imu_propagation.cpp:126-218 [Propagate].  The previous sample is read (and a
    null pointer dereferenced) only after the queue was found non-empty and popped. *)
Definition Propagate (ip : imu_prop) (s : rstate) : res (bool * imu_prop * rstate) :=
  match ip_queue ip with
  | [] => Ok (false, ip, s)
  | next :: q =>
    let prev := ip_prev ip in
    let ip := set_prev (set_queue ip q) next in
    let* m := of_opt prev NullDeref in
    let* s := propagate_with ip m s in
    Ok (true, ip, s)
  end.

(** [std::vector::size() < int]: the int is converted to an unsigned 64-bit value *)
Definition size_lt (n : nat) (k : Z) : bool :=
  (Z.of_nat n <? (if k <? 0 then k + 18446744073709551616 else k))%Z.

(** imu_propagation.cpp:434-461: one calibration sample (gravity removed) *)
Definition calib_sample (ip : imu_prop) (m : imu) : V3 * V3 :=
  let w := ip_Rib ip *v i_w m in
  let a_compensate := cross w (cross w (ip_t ip)) in
  let a := ip_Rib ip *v i_a m -v a_compensate in
  let Rm := if ip_use_ori ip then ip_Rib ip *m toRotationMatrix (i_q m) else mid in
  (w, mtr Rm *v (Rm *v a +v g_)).

(** imu_propagation.cpp:415-476 [InitImuBias]; averaging an empty vector is 0/0. *)
Definition InitImuBias (ip : imu_prop) : res imu_prop :=
  if negb (ip_static ip) then Ok (set_bias ip (ip_bg0 ip) (ip_ba0 ip))
  else if size_lt (length (ip_vec ip)) (ip_init_size ip) then
    match ip_queue ip with
    | [] => Ok ip
    | m :: q => Ok (set_prev (set_vec (set_queue ip q) (ip_vec ip ++ [calib_sample ip m])) m)
    end
  else
    let sumw := fold_left (fun a v => a +v fst v) (ip_vec ip) vzero in
    let suma := fold_left (fun a v => a +v snd v) (ip_vec ip) vzero in
    let* _ := check (negb (length (ip_vec ip) =? 0)%nat) DivZero in
    let n := INR (length (ip_vec ip)) in
    Ok (set_bias ip ((1 / n) *s sumw) ((1 / n) *s suma)).

(** imu_propagation.cpp:491-532 [set_initial_state]; false = queue empty *)
Definition set_initial_state (ip : imu_prop) (s : rstate) : res (bool * imu_prop * rstate) :=
  match ip_queue ip with
  | [] => Ok (false, ip, s)
  | m :: q =>
    let R0 := if ip_use_ori ip then toRotationMatrix (i_q m) else mid in
    let* s := set_rotation s R0 in
    let* s := set_position s vzero in
    let s := set_body_angular_velocity s (i_w m) in
    let* s := set_gyroscope_bias s (ip_bg0 ip) in
    let* s := set_accelerometer_bias s (ip_ba0 ip) in
    let s := set_enable_imu_bias_update s (ip_enable ip) in
    let s := set_time s (i_t m) in
    let s := set_propagate_time s (i_t m) in
    let* s := set_gyroscope_bias_covariance s (ip_gyro_bias_cov ip) in
    let* s := set_accelerometer_bias_covariance s (ip_accel_bias_cov ip) in
    Ok (true, set_prev (set_queue ip q) m, s)
  end.

(** imu_propagation.cpp:534-540 [clear]: only the queue *)
Definition IP_clear (ip : imu_prop) : imu_prop := set_queue ip [].
