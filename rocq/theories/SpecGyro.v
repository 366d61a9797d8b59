(** Specification vocabulary for the gyro filter (C37, C38, C59-C61). *)
From Coq Require Import Reals ZArith List Bool Arith Lia.
From Verif Require Import Res Vec3 Mat MatInv Psd Spec Imu ImuFilter.
Import ListNotations.
Local Open Scope R_scope.

(** a usable configuration: no zero measurement noise *)
Definition gcfg_ok (g : gf_cfg) : Prop := q_imu_std g <> Some 0 /\ q_enc_std g <> Some 0.
(** an object as a user sets it up: a constructor and any number of add_ calls with empty buffers *)
Inductive gadd := AGyro | AImu | AAv.
Definition gf_add (g : gfilt) (a : gadd) : gfilt :=
  match a with AGyro => add_gyro_propagate g [] | AImu => add_imu_correction g [] | AAv => add_ang_vel_correction g [] end.
Definition gf_setup (g : gfilt) (l : list gadd) : gfilt := fold_left gf_add l g.

(** sizes and covariances as they should be *)
Record gyro_ok (g : gfilt) : Prop := {
  go_xr : nr (gf_x g) = 6%nat; go_xc : nc (gf_x g) = 1%nat;
  go_Pr : nr (gf_P g) = 6%nat; go_P : psd (gf_P g) }.
(** the Kalman update of estimate x and covariance P with an observation y = H x + noise *)
Definition kalman_update (x P H N : mat) (y : V3) (x' P' : mat) : Prop :=
  exists K, nr K = nr x /\ nc K = nr N /\ K *M (H *M P *M mT H +M N) = P *M mT H /\
    x' = x +M K *M (ofV3 y -M H *M x) /\
    P' = (meye 6 -M K *M H) *M P *M mT (meye 6 -M K *M H) +M K *M N *M mT K.

(** the contents of a buffer (none if there is no buffer) *)
Definition q_of {A} (o : option (list A)) : list A := match o with Some q => q | None => [] end.
(** what one iteration of the filter thread does with the samples waiting: at most one
    gyro sample, at most one IMU or encoder sample, the earlier one if there are both; at
    most one result, carrying the current estimate, with the time of the sample used *)
Definition turn (g g' : gfilt) : Prop :=
  exists tg ti ta new,
    q_of (gf_gyro g) = tg ++ q_of (gf_gyro g') /\ (length tg <= 1)%nat /\
    q_of (gf_imu g) = ti ++ q_of (gf_imu g') /\ q_of (gf_av g) = ta ++ q_of (gf_av g') /\ gf_imus g' = gf_imus g /\
    (length ti + length ta <= 1)%nat /\ gf_out g' = gf_out g ++ new /\ (length new <= length ti + length ta)%nat /\
    (forall m, In m new -> i_w m = head3 (gf_x g') /\
       ((exists x, ti = [x] /\ i_t m = i_t x /\ i_a m = i_a x /\ i_q m = i_q x) \/
        (exists a x, ta = [a] /\ i_t m = av_t a /\ gf_latest g' = Some x /\ i_a m = i_a x /\ i_q m = i_q x))) /\
    (forall x a, ti = [x] -> hd_error (q_of (gf_av g)) = Some a -> gf_cm g = SINGLE_IMU_PLUS_ANG_VEL -> i_t x <= av_t a) /\
    (forall x a, ta = [a] -> hd_error (q_of (gf_imu g)) = Some x -> gf_cm g = SINGLE_IMU_PLUS_ANG_VEL -> av_t a < i_t x).

(** samples delivered by a history *)
Definition g_gyros (os : list gop) : list imu := flat_map (fun o => match o with GGyro m => [m] | _ => [] end) os.
Definition g_imus (os : list gop) : list imu := flat_map (fun o => match o with GImu m => [m] | _ => [] end) os.
Definition g_avs (os : list gop) : list avmeas := flat_map (fun o => match o with GAv m => [m] | _ => [] end) os.
(** no clear(), no pop by the reader of the results *)
Definition no_gclear (o : gop) : bool := match o with GClear | GRunClr => false | _ => true end.
Definition no_gpop (o : gop) : bool := match o with GPop => false | _ => true end.
Definition mean (l : list V3) : V3 := (/ INR (length l)) *s fold_right vadd vzero l.

(** the samples used by a filter, in the order of their use *)
Definition used := list (imu + avmeas).
Definition u_imus (u : used) : list imu := flat_map (fun x => match x with Datatypes.inl m => [m] | _ => [] end) u.
Definition u_avs (u : used) : list avmeas := flat_map (fun x => match x with Datatypes.inr m => [m] | _ => [] end) u.
Definition u_time (x : imu + avmeas) : R := match x with Datatypes.inl m => i_t m | Datatypes.inr a => av_t a end.
(** at most one result per used sample, in the same order, with the same stamp *)
Inductive emits : used -> list imu -> Prop :=
| em_nil : emits [] []
| em_skip u us ns : emits us ns -> emits (u :: us) ns
| em_out u us n ns : i_t n = u_time u -> emits us ns -> emits (u :: us) (n :: ns).
(** histories consisting of samples and iterations only *)
Definition g_plain (o : gop) : bool := match o with GGyro _ | GImu _ | GAv _ | GRun => true | _ => false end.
(** what a history without MULTI_IMU does: each buffer plus the samples delivered = the samples
    used plus what is left, in order, and the results of the samples used *)
Record hstep (g g' : gfilt) (os : list gop) : Prop := {
  hs_init : gf_init g' = true; hs_cm : gf_cm g' = gf_cm g;
  hs_ex : exists ug u new, q_of (gf_gyro g) ++ g_gyros os = ug ++ q_of (gf_gyro g') /\
    q_of (gf_imu g) ++ g_imus os = u_imus u ++ q_of (gf_imu g') /\ q_of (gf_av g) ++ g_avs os = u_avs u ++ q_of (gf_av g') /\
    gf_out g' = gf_out g ++ new /\ emits u new }.

(** filters as a user gets them: configuration object, set-up calls, then any history *)
Definition greach (c : gf_cfg) (l : list gadd) (os : list gop) (g : gfilt) : Prop :=
  gcfg_ok c /\ gf_run (gf_setup (ImuAngVelEKF_config c) l) os = Ok g.
(** an initialised filter propagating by the gyro, nothing waiting for a correction *)
Definition no_corr (g : gfilt) : Prop := q_of (gf_imu g) = [] /\ q_of (gf_av g) = [] /\ (forall q, In q (gf_imus g) -> q = []) /\ gf_pm g = GYRO /\ gf_init g = true.
Definition at_time (t : R) : imu := mkImu t (mkQ 1 0 0 0) vzero vzero.
(** the empty configuration file *)
Definition no_gcfg : gf_cfg := mkGCfg None None None None None None None None None None None None None.
(** the effect of gyro samples [us] on estimate and covariance *)
Record reckon (g g' : gfilt) (us : list imu) : Prop := {
  rk_x : gf_x g' = gf_x g +M vec6 (last (map i_w us) (gf_prev g) -v gf_prev g) vzero;
  rk_P : gf_P g' = gf_P g +M INR (length us) *S gf_Q g;
  rk_prev : gf_prev g' = last (map i_w us) (gf_prev g);
  rk_Q : gf_Q g' = gf_Q g; rk_out : gf_out g' = gf_out g; rk_last : us <> [] -> gf_last g' = i_t (last us (at_time 0)) }.
(** the roll and pitch rates and biases are the same *)
Definition roll_pitch_same (x x' : mat) : Prop :=
  v0 (head3 x') = v0 (head3 x) /\ v1 (head3 x') = v1 (head3 x) /\ v0 (tail3 x') = v0 (tail3 x) /\ v1 (tail3 x') = v1 (tail3 x).
(** no sample is waiting in any buffer *)
Definition g_idle (g : gfilt) : Prop :=
  gf_init g = true /\ q_of (gf_gyro g) = [] /\ q_of (gf_imu g) = [] /\ q_of (gf_av g) = [] /\ (forall q, In q (gf_imus g) -> q = []).
