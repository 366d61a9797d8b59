(** Model of src/estimator/inekf_estimator.cpp (class InekfEstimator). *)
From Coq Require Import Reals ZArith List Bool Arith Lia String Ascii DecimalString.
From Verif Require Import Res Vec3 Mat MatInv LieGroup RobotState Inekf Imu Quat Propagation Queue VelCorr LegCorr.
Import ListNotations.
Local Open Scope R_scope.

(** ** Corrections: std::vector<std::shared_ptr<Correction>> (virtual dispatch) *)
Inductive corr_obj := CVel (c : vel_corr) | CLeg (c : leg_corr).

(** What arrives at the queue of one correction during one call of the estimator: the
    batches before each of its critical sections (see Queue.v); only the part of the
    correction's own kind matters. *)
Record arrivals := mkArr { a_vel : list (list vmeas); a_leg : list (list lmeas) }.
Definition no_arr : arrivals := mkArr [] [].

(** Correction::Correct *)
Definition corr_Correct (c : corr_obj) (h : heap) (s : rstate) (a : arrivals) : res (bool * corr_obj * heap * rstate) :=
  match c with
  | CVel c => let* '(b, c, s) := vel_Correct c s (a_vel a) in Ok (b, CVel c, h, s)
  | CLeg c => let* '(b, c, h, s) := leg_Correct c h s (a_leg a) in Ok (b, CLeg c, h, s)
  end.
(** inekf_estimator.cpp:260-261: "while (!initialized) initialized = initialize(state)".
    Before each attempt a batch arrives; what has not arrived at the end arrives before
    the call of InitState returns.  A schedule that never delivers spins for ever. *)
Fixpoint vel_spin (c : vel_corr) (s : rstate) (sched : list (list vmeas)) : res (vel_corr * rstate) :=
  let* '(b, c, s) := vel_initialize c s (hd_batch sched) in
  if b then Ok (vc_set_queue c (vc_queue c ++ List.concat (tl_batch sched)), s)
  else match sched with [] => Fail Spin | _ :: bs => vel_spin c s bs end.
Fixpoint leg_spin (c : leg_corr) (s : rstate) (sched : list (list lmeas)) : res (leg_corr * rstate) :=
  let* '(b, c, s) := leg_initialize c s (hd_batch sched) in
  if b then Ok (lc_set_queue c (lc_queue c ++ List.concat (tl_batch sched)), s)
  else match sched with [] => Fail Spin | _ :: bs => leg_spin c s bs end.
Definition corr_spin (c : corr_obj) (s : rstate) (a : arrivals) : res (corr_obj * rstate) :=
  match c with
  | CVel c => let* '(c, s) := vel_spin c s (a_vel a) in Ok (CVel c, s)
  | CLeg c => let* '(c, s) := leg_spin c s (a_leg a) in Ok (CLeg c, s)
  end.
(** Correction::clear *)
Definition corr_clear (c : corr_obj) : corr_obj :=
  match c with CVel c => CVel (vel_clear c) | CLeg c => CLeg (leg_clear c) end.

(** arrivals of the first correction, of the others *)
Definition hd_arr (l : list arrivals) : arrivals := match l with [] => no_arr | a :: _ => a end.
Definition tl_arr (l : list arrivals) : list arrivals := match l with [] => [] | _ :: l => l end.

(** subscriber callbacks push to the queue shared with a correction *)
Definition push_corr (c : corr_obj) (v : list vmeas) (l : list lmeas) : corr_obj :=
  match c with
  | CVel c => CVel (vc_set_queue c (vc_queue c ++ v))
  | CLeg c => CLeg (lc_set_queue c (lc_queue c ++ l))
  end.
Fixpoint deliver_all (cs : list corr_obj) (l : list arrivals) : list corr_obj :=
  match cs with
  | [] => []
  | c :: cs => push_corr c (List.concat (a_vel (hd_arr l))) (List.concat (a_leg (hd_arr l))) :: deliver_all cs (tl_arr l)
  end.

(** inekf_estimator.cpp:100-104 *)
Fixpoint correct_all (cs : list corr_obj) (h : heap) (s : rstate) (l : list arrivals)
    : res (bool * list corr_obj * heap * rstate) :=
  match cs with
  | [] => Ok (false, [], h, s)
  | c :: cs =>
    let* '(b, c, h, s) := corr_Correct c h s (hd_arr l) in
    let* '(b', cs, h, s) := correct_all cs h s (tl_arr l) in
    Ok (b || b', c :: cs, h, s)
  end.
(** inekf_estimator.cpp:258-262 *)
Fixpoint spin_all (cs : list corr_obj) (s : rstate) (l : list arrivals) : res (list corr_obj * rstate) :=
  match cs with
  | [] => Ok ([], s)
  | c :: cs =>
    let* '(c, s) := corr_spin c s (hd_arr l) in
    let* '(cs, s) := spin_all cs s (tl_arr l) in
    Ok (c :: cs, s)
  end.

(** ** The logger *)
(** inekf_estimator.cpp:150-171: one line in each of the three files; numbers are exact
    and their text form is not modelled. *)
Record log_line := mkLine {
  ll_file : string * string * string;   (* pose, velocity, body velocity file *)
  ll_t : R; ll_p : V3; ll_q : quat; ll_v : V3; ll_bv : V3 }.

(** inekf_estimator.cpp:52-59: name.erase(name.find_last_of("."), name.length()) *)
Fixpoint has_dot (n : string) : bool :=
  match n with
  | EmptyString => false
  | String c n => if Ascii.eqb c "." then true else has_dot n
  end.
Fixpoint strip_ext (n : string) : string :=
  match n with
  | EmptyString => EmptyString
  | String c n' => if has_dot n then (if Ascii.eqb c "." && negb (has_dot n') then EmptyString else String c (strip_ext n')) else n
  end.
(** std::to_string of a non-negative int *)
Definition to_string (n : nat) : string := NilZero.string_of_uint (Nat.to_uint n).

(** ** The object: include/drift/estimator/inekf_estimator.h:276-320.  [e_heap] holds the
    column ids shared by corrections and states.  new_pose_ready_ is local to RunOnce,
    aug_maps is unused, imu_filter_ is a separate object with its own thread. *)
Record est := mkEst {
  e_err : error_type;
  e_state : rstate;
  e_heap : heap;
  e_prop : option imu_prop;        (* propagation_ *)
  e_corrs : list corr_obj;         (* corrections_ *)
  e_enabled : bool;
  e_out : list rstate;             (* robot_state_queue_ptr_ *)
  e_logger : bool;                 (* enable_pose_logger_ *)
  e_logq : list rstate;            (* robot_state_log_queue_ptr_ *)
  e_pending : option rstate;       (* state_log_ptr of the logging thread *)
  e_lastpub : R;                   (* last_pub_t_ *)
  e_rate : R;                      (* pose_log_rate_ *)
  e_lines : list log_line;         (* everything written so far *)
  e_names : string * string;       (* pose_log_file_, vel_log_file_ *)
  e_count : nat;                   (* init_count_; overflow of the int after 2^31 / 3 clears is not modelled *)
  e_files : string * string * string; (* the three open files *)
  e_opened : list (string * string * string); (* every triple of files opened so far *)
  e_rot_cov : R; e_vel_cov : R; e_pos_cov : R;
  e_slip : bool }.                 (* enabled_slip_estimator_ *)

(** yaml: [None] = key absent; the logger flag is mandatory *)
Record est_cfg := mkECfg {
  k_logger : bool; k_rot : option R; k_vel : option R; k_pos : option R;
  k_pose_file : option string; k_vel_file : option string; k_rate : option R }.
Definition sq_or (o : option R) (d : R) : R := match o with Some x => x ^ 2 | None => d end.
(** inekf_estimator.cpp:23-76.  Without the logger the file names stay "", the rate is
    uninitialised and never read; no file is opened. *)
Definition InekfEstimator (e : error_type) (g : est_cfg) : est :=
  let pose := strip_ext (dflt (k_pose_file g) "inekf_pose"%string) in
  let vel := strip_ext (dflt (k_vel_file g) "inekf_vel"%string) in
  let files := ((pose ++ ".txt")%string, (vel ++ ".txt")%string, (vel ++ "_body_frame.txt")%string) in
  let none := (EmptyString, EmptyString, EmptyString) in
  mkEst e RS_default [] None [] false [] (k_logger g) [] None 0 (dflt (k_rate g) 10) []
    (if k_logger g then (pose, vel) else (EmptyString, EmptyString)) 0
    (if k_logger g then files else none) (if k_logger g then [files] else [])
    (sq_or (k_rot g) (3 / 100)) (sq_or (k_vel g) (1 / 100)) (sq_or (k_pos g) (1 / 100000)) false.

(** field updates *)
Definition e_set (e : est) (s : rstate) (h : heap) (ip : option imu_prop) (cs : list corr_obj) (en : bool) (out logq : list rstate) : est :=
  mkEst (e_err e) s h ip cs en out (e_logger e) logq (e_pending e) (e_lastpub e) (e_rate e) (e_lines e) (e_names e)
    (e_count e) (e_files e) (e_opened e) (e_rot_cov e) (e_vel_cov e) (e_pos_cov e) (e_slip e).
Definition e_log (e : est) (logq : list rstate) (p : option rstate) (last : R) (lines : list log_line) : est :=
  mkEst (e_err e) (e_state e) (e_heap e) (e_prop e) (e_corrs e) (e_enabled e) (e_out e) (e_logger e) logq p last (e_rate e) lines (e_names e)
    (e_count e) (e_files e) (e_opened e) (e_rot_cov e) (e_vel_cov e) (e_pos_cov e) (e_slip e).
Definition e_reopen (e : est) (n : nat) (f : string * string * string) : est :=
  mkEst (e_err e) (e_state e) (e_heap e) (e_prop e) (e_corrs e) (e_enabled e) (e_out e) (e_logger e) (e_logq e) (e_pending e) (e_lastpub e) (e_rate e) (e_lines e) (e_names e)
    n f (e_opened e ++ [f]) (e_rot_cov e) (e_vel_cov e) (e_pos_cov e) (e_slip e).
Definition e_set_prop (e : est) (ip : imu_prop) : est :=
  e_set e (e_state e) (e_heap e) (Some ip) (e_corrs e) (e_enabled e) (e_out e) (e_logq e).
Definition e_set_corrs (e : est) (cs : list corr_obj) : est :=
  e_set e (e_state e) (e_heap e) (e_prop e) cs (e_enabled e) (e_out e) (e_logq e).
Definition e_set_out (e : est) (q : list rstate) : est :=
  e_set e (e_state e) (e_heap e) (e_prop e) (e_corrs e) (e_enabled e) q (e_logq e).

(** inekf_estimator.cpp:189-194, 213-228 *)
Definition add_imu_propagation (e : est) (q : list imu) (g : imu_cfg) : est :=
  e_set_prop e (ImuPropagation q (e_err e) g).
Definition add_legged_kinematics_correction (e : est) (q : list lmeas) (g : leg_cfg) : est :=
  e_set_corrs e (e_corrs e ++ [CLeg (LeggedKinematicsCorrection q (e_err e) g)]).
Definition add_velocity_correction (e : est) (q : list vmeas) (g : vel_cfg) : est :=
  e_set_corrs e (e_corrs e ++ [CVel (VelocityCorrection q (e_err e) g)]).

(** inekf_estimator.cpp:336-364 [SlipEstimatorStep].  Sigma (line 353) is computed and
    never used, but its blocks are read. *)
Definition SlipEstimatorStep (s : rstate) : res rstate :=
  let P := sP s in
  let* _ := get_rotation s in
  let* i := idx (Z.of_nat (dimX s) - 1) in
  let* d := get_aug_state s i in
  let* _ := cgetM3 P 0 0 in
  let* _ := cgetM3 P 0 9 in
  let* _ := cgetM3 P 9 0 in
  let* _ := cgetM3 P 9 9 in
  let chi := vdot d ((1000 *ms mid) *v d) in
  Ok (set_slip_flag s (if Rlt_dec (4642 / 1000) chi then 1 else 0)%Z).

(** inekf_estimator.cpp:95-123 [RunOnce] *)
Definition RunOnce (e : est) (l : list arrivals) : res est :=
  let* ip := of_opt (e_prop e) NullDeref in
  let* '(b, ip, s) := Propagate ip (e_state e) in
  let* '(b', cs, h, s) := correct_all (e_corrs e) (e_heap e) s l in
  if b || b' then
    let out := e_out e ++ [s] in
    let* s := if e_slip e then SlipEstimatorStep s else Ok s in
    Ok (e_set e s h (Some ip) cs (e_enabled e) out (if e_logger e then e_logq e ++ [s] else e_logq e))
  else Ok (e_set e s h (Some ip) cs (e_enabled e) (e_out e) (e_logq e)).

(** inekf_estimator.cpp:230-249: is_enabled, BiasInitialized, InitBias *)
Definition BiasInitialized (e : est) : res bool :=
  let* ip := of_opt (e_prop e) NullDeref in Ok (ip_bias_init ip).
Definition InitBias (e : est) : res est :=
  let* ip := of_opt (e_prop e) NullDeref in
  let* ip := InitImuBias ip in
  Ok (e_set_prop e ip).

(** inekf_estimator.cpp:251-284 [InitState].  When no IMU sample is there it returns
    without looking at the corrections; what arrives meanwhile is queued. *)
Definition InitState (e : est) (l : list arrivals) : res est :=
  let* ip := of_opt (e_prop e) NullDeref in
  let* '(b, ip, s) := set_initial_state ip (e_state e) in
  if negb b then Ok (e_set e s (e_heap e) (Some ip) (deliver_all (e_corrs e) l) (e_enabled e) (e_out e) (e_logq e))
  else
    let* '(cs, s) := spin_all (e_corrs e) s l in
    let* s := set_rotation_covariance s (e_rot_cov e *ms mid) in
    let* s := set_velocity_covariance s (e_vel_cov e *ms mid) in
    let* s := set_position_covariance s (e_pos_cov e *ms mid) in
    Ok (e_set e s (e_heap e) (Some ip) cs true (e_out e ++ [s]) (e_logq e)).

(** inekf_estimator.cpp:286-334 [clear]; the three ++init_count_ are in lines 322, 326, 331 *)
Definition Clear (e : est) : res est :=
  let* ip := of_opt (e_prop e) NullDeref in
  let e := e_set e (RS_clear (e_state e)) (e_heap e) (Some (IP_clear ip)) (map corr_clear (e_corrs e)) false [] [] in
  if e_logger e then
    let n := e_count e in
    let '(pose, vel) := e_names e in
    Ok (e_reopen e (n + 3)
      ((pose ++ "_" ++ to_string (n + 1) ++ ".txt")%string,
       (vel ++ "_" ++ to_string (n + 2) ++ ".txt")%string,
       (vel ++ "_body_frame_" ++ to_string (n + 3) ++ ".txt")%string))
  else Ok e.

(** inekf_estimator.cpp:133-175 [PoseLoggingThread], as two steps: the critical section
    that takes a state (lines 137-146) and the writing (lines 148-173).  Anything the
    filter thread does may happen in between.  A rate of 0 makes 1.0 / rate infinite. *)
Definition log_due (rate d : R) : bool :=
  if Req_EM_T rate 0 then false else if Rle_dec (1 / rate) d then true else false.
Definition LogPop (e : est) : est :=
  match e_pending e, e_logq e with
  | None, x :: q => e_log e q (Some x) (e_lastpub e) (e_lines e)
  | _, _ => e
  end.
Definition LogWrite (e : est) : res est :=
  match e_pending e with
  | None => Ok e
  | Some x =>
    let* t := get_time x in
    if e_logger e && log_due (e_rate e) (t - e_lastpub e) then
      let* R := get_world_rotation x in
      let* p := get_world_position x in
      let* v := get_world_velocity x in
      let* bv := get_body_velocity x in
      Ok (e_log e (e_logq e) None t (e_lines e ++ [mkLine (e_files e) t p (quat_of_mat R) v bv]))
    else Ok (e_log e (e_logq e) None (e_lastpub e) (e_lines e))
  end.

(** ** Everything that can happen to an estimator between construction and destruction,
    at the granularity of its calls (and of the logging thread's two steps) *)
Inductive op :=
| OImu (m : imu)                    (** an IMU sample is delivered *)
| OVel (i : nat) (m : vmeas)        (** a sample is delivered to correction i *)
| OLeg (i : nat) (m : lmeas)
| OInitBias
| OInitState (l : list arrivals)
| ORunOnce (l : list arrivals)
| OClear
| OPopOut                           (** the reader of the published states takes one *)
| OLogPop
| OLogWrite.

Fixpoint upd_nth {A} (l : list A) (i : nat) (f : A -> A) : list A :=
  match l, i with
  | [], _ => []
  | a :: l, O => f a :: l
  | a :: l, S i => a :: upd_nth l i f
  end.
Definition est_step (e : est) (o : op) : res est :=
  match o with
  | OImu m => let* ip := of_opt (e_prop e) NullDeref in Ok (e_set_prop e (set_queue ip (ip_queue ip ++ [m])))
  | OVel i m => Ok (e_set_corrs e (upd_nth (e_corrs e) i (fun c => push_corr c [m] [])))
  | OLeg i m => Ok (e_set_corrs e (upd_nth (e_corrs e) i (fun c => push_corr c [] [m])))
  | OInitBias => InitBias e
  | OInitState l => InitState e l
  | ORunOnce l => RunOnce e l
  | OClear => Clear e
  | OPopOut => Ok (e_set_out e (tl (e_out e)))
  | OLogPop => Ok (LogPop e)
  | OLogWrite => LogWrite e
  end.
Definition est_run (e : est) (os : list op) : res est := foldM est_step e os.
