(** Specification vocabulary for C83: one iteration of the filter, in terms of the configuration
    file alone. *)
From Coq Require Import Reals ZArith List Bool Arith Lia.
From Verif Require Import Res Vec3 Mat MatInv Psd Spec LieGroup RobotState Inekf SpecFilter Imu Quat Propagation SpecProp VelCorr LegCorr SpecCorr Estimator SpecEst SpecTrack.
Import ListNotations.
Local Open Scope R_scope.

Definition bias_on (f : config) : bool := dflt (c_enable (f_imu f)) false.
(** process noise of a foot in contact, from the (only) legged correction *)
Fixpoint leg_section (gs : list corr_cfg) : option leg_cfg :=
  match gs with [] => None | GLeg g :: _ => Some g | GVel _ :: gs => leg_section gs end.
Definition foot_drift (f : config) : R := match leg_section (f_corrs f) with Some g => var_of (h_contact g) (1 / 100) | None => 0 end.

(** ** Prediction *)
(** Noise density of each error coordinate: 0-2 orientation, 3-5 velocity, 6-8 position, then 3
    per contact, then gyroscope and accelerometer bias.  Only the contact created last carries
    noise, and only as long as it lasts ([fresh]): see C09. *)
Definition noise_at (f : config) (K : nat) (fresh : bool) (i : nat) : R :=
  if (i <? 3)%nat then var_of (c_gyro_std (f_imu f)) (1 / 100)
  else if (i <? 6)%nat then var_of (c_accel_std (f_imu f)) (1 / 100)
  else if (i <? 9)%nat then 0
  else if (i <? 3 + 3 * K)%nat then (if fresh && (3 * K <=? i)%nat then foot_drift f else 0)
  else if bias_on f then (if (i <? 6 + 3 * K)%nat then var_of (c_gyro_bias_std (f_imu f)) (1 / 100) else var_of (c_accel_bias_std (f_imu f)) (1 / 100))
  else 0.
Definition process_noise (f : config) (K : nat) (fresh : bool) : mat :=
  mk (9 + 3 * K) (9 + 3 * K) (fun i j => if Nat.eqb i j then noise_at f K fresh i else 0).
(** the noise enters in body axes: identity in left-, adjoint of the pose in right-invariant coordinates *)
Definition noise_map (f : config) (K : nat) (X : mat) : mat :=
  match f_err f with LeftInvariant => meye (9 + 3 * K) | RightInvariant => L2R K X end.
(** when the biases are not estimated their block is reset to the identity, uncorrelated with the rest *)
Definition reset_bias (K : nat) (P : mat) : mat :=
  mk (9 + 3 * K) (9 + 3 * K) (fun i j =>
    if ((3 + 3 * K <=? i) || (3 + 3 * K <=? j))%nat then (if Nat.eqb i j then 1 else 0) else ent P i j).

(** s1 is what the sample m makes of s *)
Record predicted (f : config) (m : imu) (s s1 : rstate) (K : nat) (t0 : R) (fresh : bool) (Phi : mat) : Prop := {
  pr_state : wfp K s /\ stprop s = Some t0;
  (** the exact integral of the strapdown equations over [t0, time of m] with the rates of m *)
  pr_mean : forall Rf vf pf,
    let w := body_rate f (gbias s) m in let a := body_force f (gbias s) (abias s) m in let dt := i_t m - t0 in
    (w = vzero \/ TOLERANCE <= vnorm (dt *s w)) ->
    strapdown w a Rf vf pf -> Rf 0 = rot (sX s) -> vf 0 = col (sX s) 0 -> pf 0 = col (sX s) 1 ->
    rot (sX s1) = Rf dt /\ col (sX s1) 0 = vf dt /\ col (sX s1) 1 = pf dt;
  pr_rest : (forall k, (2 <= k < K)%nat -> col (sX s1) k = col (sX s) k) /\ sTheta s1 = sTheta s /\ st s1 = Some (i_t m) /\ stprop s1 = Some (i_t m);
  (** Phi is the transition matrix C19 and C53 are about *)
  pr_Phi : forall ip, ip_err ip = f_err f -> ip_enable ip = bias_on f ->
    StateTransitionMatrix ip (body_rate f (gbias s) m) (body_force f (gbias s) (abias s) m) (i_t m - t0) s = Ok Phi;
  (** P1 = Phi P Phi^T + dt (Phi G) Q (Phi G)^T *)
  pr_cov : let G := Phi *M noise_map f K (sX s) in
    let P1 := Phi *M sP s *M mT Phi +M (i_t m - t0) *S (G *M process_noise f K fresh *M mT G) in
    sP s1 = if bias_on f then P1 else reset_bias K P1 }.

(** ** Corrections *)
(** the sensor objects as the configuration file describes them *)
Definition vel_settings (e : error_type) (g : vel_cfg) : vel_corr :=
  mkVC [] e (var_of (g_std g) (1 / 100) *ms mid) (dflt (g_thr g) (3 / 10)) (toRotationMatrix (dflt (g_quat g) (mkQ 1 0 0 0))) (dflt (g_scale g) 1).
Definition leg_settings (e : error_type) (g : leg_cfg) (feet : nat -> option nat) : leg_corr :=
  mkLC [] e (dflt (h_enc g) (1 / 100)) (dflt (h_kin g) (5 / 100)) (var_of (h_contact g) (1 / 100) *ms mid) (dflt (h_thr g) (3 / 10)) feet.

(** what happened to the readings waiting at one correction: in order, stale ones dropped, then at
    most one, not stale, used *)
Definition readings_taken (g : corr_cfg) (tp : R) (c : corr_obj) (a : arrivals) (ft : fate reading) (c' : corr_obj) : Prop :=
  queued c ++ arriving c a = consumed ft ++ queued c' /\
  Forall (fun x => stale (cfg_thr g) tp (r_time x)) (f_dropped ft) /\
  (forall x, f_used ft = Some x -> ~ stale (cfg_thr g) tp (r_time x)).
(** what the reading used, if any, did: vel_applied, leg_corrected and leg_booked are the textbook
    updates of C21, C24 and C52, here with the configured noise, mounting and scale *)
Definition reading_applied (e : error_type) (g : corr_cfg) (c : corr_obj) (h : heap) (s : rstate) (r : option reading) (c' : corr_obj) (h1 : heap) (s1 : rstate) : Prop :=
  match r, g, c, c' with
  | None, _, _, _ => h1 = h /\ s1 = s
  | Some (Datatypes.inl m), GVel g, _, _ => h1 = h /\ forall K, wfp K s -> vel_applied K (vel_settings e g) m s s1
  | Some (Datatypes.inr m), GLeg g, CLeg c, CLeg c' =>
    let c0 := leg_settings e g (lc_map c) in
    exists sk, (forall K, wfp K s -> leg_corrected K c0 h m s sk) /\ leg_booked c0 h m sk c' h1 s1
  | _, _, _, _ => False
  end.
(** all corrections, in the order of the configuration *)
Inductive corrected (e : error_type) (tp : R) : list corr_cfg -> list corr_obj -> list arrivals -> heap -> rstate -> list corr_obj -> heap -> rstate -> Prop :=
| C_nil l h s : corrected e tp [] [] l h s [] h s
| C_cons g gs c cs l h s ft c' cs' h1 s1 h2 s2 :
    readings_taken g tp c (hd_arr l) ft c' -> reading_applied e g c h s (f_used ft) c' h1 s1 ->
    corrected e tp gs cs (tl_arr l) h1 s1 cs' h2 s2 ->
    corrected e tp (g :: gs) (c :: cs) l h s (c' :: cs') h2 s2.

(** ** Calibration *)
Definition calib_window (f : config) : nat := Z.to_nat (dflt (c_init_size (f_imu f)) 0%Z).
(** specific force of a calibration sample with gravity removed: to the world (in the orientation
    the IMU reports, or level), add gravity, back *)
Definition level_force (f : config) (m : imu) : V3 :=
  let w := mounting f *v i_w m in
  let B := if dflt (c_use_ori (f_imu f)) false then mounting f *m toRotationMatrix (i_q m) else mid in
  mtr B *v (B *v (mounting f *v i_a m -v cross w (cross w (lever f))) +v gravity).
(** the biases the filter starts with: the configured ones, or the means over the first samples
    of the stream *)
Definition starts_with (f : config) (samples : list imu) (bg ba : V3) : Prop :=
  if dflt (c_static (f_imu f)) true then
    let used := firstn (calib_window f) samples in
    length used = calib_window f /\
    is_mean bg (map (fun m => mounting f *v i_w m) used) /\ is_mean ba (map (level_force f) used)
  else bg = dflt (c_bg (f_imu f)) vzero /\ ba = dflt (c_ba (f_imu f)) vzero.
(** the sample of the stream a prediction integrates: the last one taken from the queue before *)
Definition in_turn (samples : list imu) (m : imu) (waiting : list imu) : Prop := exists before, samples = before ++ m :: waiting.
