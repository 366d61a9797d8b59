(** Specification vocabulary for the whole estimator, independent of the model's helpers. *)
From Coq Require Import Reals ZArith List Bool Arith Lia.
From Verif Require Import Res Vec3 Mat MatInv Psd Spec LieGroup RobotState Inekf SpecFilter Imu Propagation SpecProp VelCorr LegCorr SpecCorr Estimator.
Import ListNotations.
Local Open Scope R_scope.

(** ** Construction: constructor, one IMU propagation, corrections in a given order *)
Inductive corr_cfg := GVel (g : vel_cfg) | GLeg (g : leg_cfg).
Record config := mkCfg { f_err : error_type; f_est : est_cfg; f_imu : imu_cfg; f_corrs : list corr_cfg }.
Definition add_correction (e : est) (g : corr_cfg) : est :=
  match g with
  | GVel g => add_velocity_correction e [] g
  | GLeg g => add_legged_kinematics_correction e [] g
  end.
Definition build (f : config) : est :=
  fold_left add_correction (f_corrs f) (add_imu_propagation (InekfEstimator (f_err f) (f_est f)) [] (f_imu f)).

(** A usable configuration: a non-empty calibration window (unless calibration is off),
    non-zero measurement noise, at most one legged correction. *)
Definition is_leg (g : corr_cfg) : bool := match g with GLeg _ => true | _ => false end.
Definition corr_cfg_ok (g : corr_cfg) : Prop :=
  match g with GVel g => g_std g <> Some 0 | GLeg g => h_kin g <> Some 0 end.
Definition config_ok (f : config) : Prop :=
  (dflt (c_static (f_imu f)) true = true -> (0 < dflt (c_init_size (f_imu f)) 0)%Z) /\
  Forall corr_cfg_ok (f_corrs f) /\
  (length (filter is_leg (f_corrs f)) <= 1)%nat.

(** ** Protocol: calibrate until BiasInitialized, then InitState until enabled, then
    RunOnce; clear and sensor callbacks at any time. *)
Definition allowed (e : est) (o : op) : Prop :=
  match o with
  | OInitBias => e_enabled e = false /\ BiasInitialized e = Ok false
  | OInitState _ => e_enabled e = false /\ BiasInitialized e = Ok true
  | ORunOnce _ => e_enabled e = true
  | _ => True
  end.
Fixpoint protocol (e : est) (os : list op) : Prop :=
  match os with
  | [] => True
  | o :: os => allowed e o /\ forall e', est_step e o = Ok e' -> protocol e' os
  end.
(** the IMU samples delivered by a history *)
Fixpoint imus (os : list op) : list imu :=
  match os with
  | [] => []
  | OImu m :: os => m :: imus os
  | _ :: os => imus os
  end.
Definition sorted (l : list R) : Prop := match l with [] => True | x :: l => nondec x l end.
(** unit quaternions, time stamps that do not go backwards *)
Definition imu_stream (l : list imu) : Prop := Forall (fun m => qnorm2 (i_q m) = 1) l /\ sorted (map i_t l).

(** every correction gets at least one measurement (queued or arriving) *)
Definition fed (c : corr_obj) (a : arrivals) : Prop :=
  match c with
  | CVel c => vc_queue c ++ concat (a_vel a) <> []
  | CLeg c => lc_queue c ++ concat (a_leg a) <> []
  end.
Fixpoint fed_all (cs : list corr_obj) (l : list arrivals) : Prop :=
  match cs with [] => True | c :: cs => fed c (hd_arr l) /\ fed_all cs (tl_arr l) end.

(** ** A sound estimate: velocity, position and n contacts; the matrix is in SE_{2+n}(3)
    (rotation orthogonal with determinant 1), all sizes match, the covariance is symmetric
    positive semi-definite and the state has a time stamp. *)
Definition sound (s : rstate) : Prop :=
  exists n t, wfp (2 + n) s /\ psd (sP s) /\ st s = Some t.

(** ** What a call does with the measurements waiting at a correction *)
Definition reading := (vmeas + lmeas)%type.
Definition r_time (x : reading) : R := match x with Datatypes.inl m => vm_t m | Datatypes.inr m => lm_t m end.
Definition queued (c : corr_obj) : list reading :=
  match c with CVel c => map Datatypes.inl (vc_queue c) | CLeg c => map Datatypes.inr (lc_queue c) end.
Definition arriving (c : corr_obj) (a : arrivals) : list reading :=
  match c with CVel _ => map Datatypes.inl (concat (a_vel a)) | CLeg _ => map Datatypes.inr (concat (a_leg a)) end.
Definition thr_of (c : corr_obj) : R := match c with CVel c => vc_thr c | CLeg c => lc_thr c end.
(** RunOnce: in arrival order, first stale readings are dropped, then at most one
    reading that is not stale is used; the others stay *)
Definition turn_ok (tp : option R) (c : corr_obj) (a : arrivals) (f : fate reading) (c' : corr_obj) : Prop :=
  queued c ++ arriving c a = consumed f ++ queued c' /\
  Forall (fun x => exists t, tp = Some t /\ stale (thr_of c) t (r_time x)) (f_dropped f) /\
  (forall x, f_used f = Some x -> exists t, tp = Some t /\ ~ stale (thr_of c) t (r_time x)).
Fixpoint turns_ok (tp : option R) (cs : list corr_obj) (l : list arrivals) (fs : list (fate reading)) (cs' : list corr_obj) : Prop :=
  match cs, fs, cs' with
  | [], [], [] => True
  | c :: cs, f :: fs, c' :: cs' => turn_ok tp c (hd_arr l) f c' /\ turns_ok tp cs (tl_arr l) fs cs'
  | _, _, _ => False
  end.

(** InitState: every correction takes at least one reading, oldest first *)
Fixpoint took_all (cs : list corr_obj) (l : list arrivals) (us : list (list reading)) (cs' : list corr_obj) : Prop :=
  match cs, us, cs' with
  | [], [], [] => True
  | c :: cs, u :: us, c' :: cs' =>
    (queued c ++ arriving c (hd_arr l) = u ++ queued c' /\ u <> []) /\ took_all cs (tl_arr l) us cs'
  | _, _, _ => False
  end.
Definition newest {A} (l : list A) : option A := hd_error (rev l).
(** body velocity of a reading, given the body rate *)
Definition r_vel (w : V3) (x : reading) : V3 := match x with Datatypes.inl m => vm_v m | Datatypes.inr m => lm_initv m w end.
(** the reading used last in the order of the corrections *)
Fixpoint last_used (fs : list (fate reading)) (d : option reading) : option reading :=
  match fs with [] => d | f :: fs => last_used fs (match f_used f with Some x => Some x | None => d end) end.
Definition used_some (fs : list (fate reading)) : Prop := Exists (fun f => f_used f <> None) fs.
Definition imu_queue (e : est) : list imu := match e_prop e with Some ip => ip_queue ip | None => [] end.
(** e is what a legal history os makes of a freshly built estimator *)
Definition reachable (f : config) (os : list op) (e : est) : Prop :=
  config_ok f /\ imu_stream (imus os) /\ protocol (build f) os /\ est_run (build f) os = Ok e.

(** configured thresholds, initial covariances *)
Definition cfg_thr (g : corr_cfg) : R := match g with GVel g => dflt (g_thr g) (3 / 10) | GLeg g => dflt (h_thr g) (3 / 10) end.
Definition prop_time (s : rstate) : R := match stprop s with Some t => t | None => 0 end.

(** ** Histories *)
(** a per-step record of something observed along a history *)
Fixpoint traced {T} (P : est -> op -> est -> T -> Prop) (e : est) (os : list op) (ts : list T) : Prop :=
  match os, ts with
  | [], [] => True
  | o :: os, t :: ts => exists e', est_step e o = Ok e' /\ P e o e' t /\ traced P e' os ts
  | _, _ => False
  end.
(** the IMU samples a step takes from the queue *)
Definition imu_move (e : est) (o : op) (e' : est) (tk : list imu) : Prop :=
  match o with
  | OImu m => tk = [] /\ imu_queue e' = imu_queue e ++ [m]
  | OInitBias | OInitState _ | ORunOnce _ => imu_queue e = tk ++ imu_queue e' /\ (length tk <= 1)%nat
  | OClear => tk = imu_queue e /\ imu_queue e' = []
  | _ => tk = [] /\ imu_queue e' = imu_queue e
  end.
(** readings delivered to correction number i, of kind g, by a step *)
Definition delivered (g : corr_cfg) (i : nat) (o : op) : list reading :=
  match g, o with
  | GVel _, OVel j m => if Nat.eqb i j then [Datatypes.inl m] else []
  | GLeg _, OLeg j m => if Nat.eqb i j then [Datatypes.inr m] else []
  | GVel _, (ORunOnce l | OInitState l) => map Datatypes.inl (concat (a_vel (nth i l no_arr)))
  | GLeg _, (ORunOnce l | OInitState l) => map Datatypes.inr (concat (a_leg (nth i l no_arr)))
  | _, _ => []
  end.
Definition queue_of (e : est) (i : nat) : list reading :=
  match nth_error (e_corrs e) i with Some c => queued c | None => [] end.
(** the readings a step takes from the queue of correction i: RunOnce drops stale ones
    and applies at most one; InitState applies the newest of those it takes; clear drops all *)
Definition corr_move (g : corr_cfg) (i : nat) (e : est) (o : op) (e' : est) (tk : fate reading) : Prop :=
  queue_of e i ++ delivered g i o = consumed tk ++ queue_of e' i /\
  match o with
  | ORunOnce _ | OInitState _ => True
  | OClear => f_used tk = None /\ queue_of e' i = []
  | _ => consumed tk = []
  end.

(** states handed to the reader of the output queue by a step / by a history *)
Definition is_filter_op (o : op) : bool := match o with ORunOnce _ | OInitState _ => true | _ => false end.
Definition is_run_op (o : op) : bool := match o with ORunOnce _ => true | _ => false end.
Fixpoint published (sel : op -> bool) (e : est) (os : list op) : list rstate :=
  match os with
  | [] => []
  | o :: os =>
    match est_step e o with
    | Ok e' => (if sel o then skipn (length (e_out e)) (e_out e') else []) ++ published sel e' os
    | Fail _ => []
    end
  end.
(** l1 is l2 with some elements left out *)
Inductive subseq {A} : list A -> list A -> Prop :=
| SS_nil : subseq [] []
| SS_take x l1 l2 : subseq l1 l2 -> subseq (x :: l1) (x :: l2)
| SS_skip x l1 l2 : subseq l1 l2 -> subseq l1 (x :: l2).
(** the line logged for a state *)
Definition line_for (s : rstate) (ln : log_line) : Prop :=
  st s = Some (ll_t ln) /\ ll_p ln = col (sX s) 1 /\ ll_v ln = col (sX s) 0 /\
  ll_bv ln = mtr (rot (sX s)) *v col (sX s) 0 /\ qnorm2 (ll_q ln) = 1 /\ toRotationMatrix (ll_q ln) = rot (sX s).
(** consecutive lines at least d apart *)
Fixpoint spaced (d : R) (ts : list R) : Prop :=
  match ts with
  | t1 :: (t2 :: _) as r => t2 - t1 >= d /\ spaced d r
  | _ => True
  end.

(** the states a logger with period d must write, given the time of the last one *)
Fixpoint decimate (d last : R) (ss : list rstate) : list rstate :=
  match ss with
  | [] => []
  | s :: ss =>
    match st s with
    | Some t => if Rle_dec d (t - last) then s :: decimate d t ss else decimate d last ss
    | None => decimate d last ss
    end
  end.
Definition no_clear (o : op) : bool := match o with OClear => false | _ => true end.

(** the initial covariance in terms of the configuration: diagonal blocks for rotation,
    velocity, position, gyro bias, accelerometer bias *)
Definition var_of (o : option R) (d : R) : R := match o with Some s => s ^ 2 | None => d end.
Definition std_of (o : option R) : R := match o with Some s => s | None => 1 / 10 end.
Definition diag3 (x : R) : M3 := x *ms mid.
Definition start_cov (f : config) (b : nat) : M3 :=
  match b with
  | 0%nat => diag3 (var_of (k_rot (f_est f)) (3 / 100))
  | 1%nat => diag3 (var_of (k_vel (f_est f)) (1 / 100))
  | 2%nat => diag3 (var_of (k_pos (f_est f)) (1 / 100000))
  | 3%nat => diag3 (std_of (c_gyro_bias_std (f_imu f)) ^ 2)
  | _ => diag3 (std_of (c_accel_bias_std (f_imu f)) ^ 2)
  end.
(** velocity samples delivered by a history (between calls) *)
Definition vels (os : list op) : list vmeas := flat_map (fun o => match o with OVel _ m => [m] | _ => [] end) os.
(** states published but not yet looked at by the logging thread *)
Definition log_wait (e : est) : list rstate := (match e_pending e with Some s => [s] | None => [] end) ++ e_logq e.
