(** Specification vocabulary for C84: one iteration of the gyro filter in terms of its
    configuration file, the sensors added and the samples delivered. *)
From Coq Require Import Reals ZArith List Bool Arith Lia.
From Verif Require Import Res Vec3 Mat MatInv Psd Spec Imu Propagation ImuFilter SpecGyro.
Import ListNotations.
Local Open Scope R_scope.

(** ** parameters *)
Definition g_var (o : option R) (d : R) : R := match o with Some s => s ^ 2 | None => d ^ 2 end.
Definition rate_bias_cov (a b : R) : mat := mk 6 6 (fun i j => if Nat.eqb i j then (if Nat.ltb i 3 then a else b) else 0).
Definition g_start_cov (c : gf_cfg) : mat := rate_bias_cov (g_var (q_std c) (1 / 100)) (g_var (q_bias_std c) (1 / 100)).
Definition g_noise (c : gf_cfg) : mat := rate_bias_cov (g_var (q_fstd c) (1 / 100)) (g_var (q_fbias_std c) (1 / 100)).
Definition g_thr (c : gf_cfg) : R := dflt (q_thr c) (3 / 100).
Definition g_mount (c : gf_cfg) : M3 := toRotationMatrix (dflt (q_quat c) (mkQ 1 0 0 0)).
(** what a sensor sees of an estimate (rate, bias): an IMU rate plus bias, an encoder the rate;
    all axes with flat_ground on, the vertical one only otherwise (see C64) *)
Definition imu_sees (c : gf_cfg) (x : mat) : V3 :=
  if dflt (q_flat c) false then head3 x +v tail3 x else mkV 0 0 (v2 (head3 x) + v2 (tail3 x)).
Definition enc_sees (c : gf_cfg) (x : mat) : V3 :=
  if dflt (q_flat c) false then head3 x else mkV 0 0 (v2 (head3 x)).
Definition observes (H : mat) (sees : mat -> V3) : Prop :=
  nr H = 3%nat /\ nc H = 6%nat /\ forall x, nr x = 6%nat -> nc x = 1%nat -> H *M x = ofV3 (sees x).

(** ** sensors added *)
Definition has_gyro (l : list gadd) : bool := existsb (fun a => match a with AGyro => true | _ => false end) l.
Definition imus_added (l : list gadd) : nat := length (filter (fun a => match a with AImu => true | _ => false end) l).
Definition encs_added (l : list gadd) : nat := length (filter (fun a => match a with AAv => true | _ => false end) l).
(** the correction method: from the sensors, else the configured one *)
Definition the_method (c : gf_cfg) (l : list gadd) : corr_method :=
  match imus_added l, encs_added l with
  | 0, 1 => ANG_VEL
  | 1, 0 => SINGLE_IMU
  | 1, 1 => SINGLE_IMU_PLUS_ANG_VEL
  | S (S _), 0 => MULTI_IMU
  | _, _ => match q_method c with Some z => method_of z | None => SINGLE_IMU_PLUS_ANG_VEL end
  end%nat.

(** ** the gyro samples so far: those taken during calibration, those dropped at its end, those
    integrated, those waiting *)
Definition gyro_past (c : gf_cfg) (os : list gop) (waiting a d b : list imu) : Prop :=
  g_gyros os = a ++ d ++ b ++ waiting /\ (dflt (q_static c) false = false -> a = [] /\ d = []).
Definition last_rate (a b : list imu) : V3 := last (map i_w (a ++ b)) vzero.
Definition last_time (b : list imu) : R := last (map i_t b) (- 1).

(** ** prediction: (x, P) becomes (x1, P1); tl = time of the last gyro sample integrated,
    lat = the sample whose orientation and acceleration encoder results will carry *)
Definition g_predicted (c : gf_cfg) (l : list gadd) (a b waiting left : list imu) (x P : mat) (lat : option imu) (x1 P1 : mat) (tl : R) (lat1 : option imu) : Prop :=
  if has_gyro l then
    match waiting with
    | [] => left = [] /\ x1 = x /\ P1 = P /\ tl = last_time b /\ lat1 = lat
    | m :: q => left = q /\ x1 = x +M vec6 (i_w m -v last_rate a b) vzero /\ P1 = P +M g_noise c /\ tl = i_t m /\
                lat1 = match the_method c l with ANG_VEL => Some m | _ => lat end
    end
  else left = [] /\ waiting = [] /\ x1 = x /\ P1 = P +M g_noise c /\ tl = - 1 /\ lat1 = lat.

(** ** correction *)
Definition imu_update (c : gf_cfg) (x P : mat) (m : imu) (x' P' : mat) : Prop :=
  exists H, observes H (imu_sees c) /\ kalman_update x P H (ofM3 (g_var (q_imu_std c) (1 / 10) *ms mid)) (i_w m) x' P'.
Definition enc_update (c : gf_cfg) (x P : mat) (a : avmeas) (x' P' : mat) : Prop :=
  exists H, observes H (enc_sees c) /\ kalman_update x P H (ofM3 (g_var (q_enc_std c) (1 / 10) *ms mid)) (mtr (g_mount c) *v av_w a) x' P'.
(** a result: the estimated rate, with the time of the sample used and orientation and
    acceleration of an IMU sample *)
Definition g_result (x' : mat) (t : R) (m : imu) : imu := mkImu t (i_q m) (head3 x') (i_a m).
Definition usable (c : gf_cfg) (tl t : R) : Prop := tl = - 1 \/ tl - t <= g_thr c.

(** queues at the start, samples taken from them, estimate, sample remembered, results *)
Inductive g_corrected (c : gf_cfg) (tl : R) (lat : option imu) (x P : mat) :
  corr_method -> list imu -> list avmeas -> list imu -> list avmeas -> option imu -> mat -> mat -> list imu -> Prop :=
(** one IMU: only a sample from the window [tl - threshold, tl] is used; another one stays *)
| G_single m q qa x' P' : tl - g_thr c <= i_t m <= tl -> imu_update c x P m x' P' ->
    g_corrected c tl lat x P SINGLE_IMU (m :: q) qa [m] [] lat x' P' [g_result x' (i_t m) m]
| G_single_wait m q qa : ~ (tl - g_thr c <= i_t m <= tl) -> g_corrected c tl lat x P SINGLE_IMU (m :: q) qa [] [] lat x P []
| G_single_none qa : g_corrected c tl lat x P SINGLE_IMU [] qa [] [] lat x P []
(** IMU and encoder: the earlier front is taken, and used if not too old *)
| G_both_imu m q qa x' P' : (forall a, hd_error qa = Some a -> i_t m <= av_t a) -> usable c tl (i_t m) -> imu_update c x P m x' P' ->
    g_corrected c tl lat x P SINGLE_IMU_PLUS_ANG_VEL (m :: q) qa [m] [] (Some m) x' P' [g_result x' (i_t m) m]
| G_both_imu_old m q qa : (forall a, hd_error qa = Some a -> i_t m <= av_t a) -> ~ usable c tl (i_t m) ->
    g_corrected c tl lat x P SINGLE_IMU_PLUS_ANG_VEL (m :: q) qa [m] [] (Some m) x P []
| G_both_enc a q qi y x' P' : (forall m, hd_error qi = Some m -> av_t a < i_t m) -> lat = Some y -> usable c tl (av_t a) -> enc_update c x P a x' P' ->
    g_corrected c tl lat x P SINGLE_IMU_PLUS_ANG_VEL qi (a :: q) [] [a] lat x' P' [g_result x' (av_t a) y]
| G_both_enc_old a q qi : (forall m, hd_error qi = Some m -> av_t a < i_t m) -> (lat = None \/ ~ usable c tl (av_t a)) ->
    g_corrected c tl lat x P SINGLE_IMU_PLUS_ANG_VEL qi (a :: q) [] [a] lat x P []
| G_both_none : g_corrected c tl lat x P SINGLE_IMU_PLUS_ANG_VEL [] [] [] [] lat x P []
(** encoder alone: the front is taken, and used once there was a gyro sample *)
| G_enc a q qi y x' P' : lat = Some y -> enc_update c x P a x' P' ->
    g_corrected c tl lat x P ANG_VEL qi (a :: q) [] [a] lat x' P' [g_result x' (av_t a) y]
| G_enc_early a q qi : lat = None -> g_corrected c tl lat x P ANG_VEL qi (a :: q) [] [a] lat x P []
| G_enc_none qi : g_corrected c tl lat x P ANG_VEL qi [] [] [] lat x P []
| G_other qi qa : g_corrected c tl lat x P OTHER_METHOD qi qa [] [] lat x P [].
(** several IMUs: the front of every buffer in turn; [fused] = the latest result of this iteration,
    published again after a sample too old to be used (see C38) *)
Inductive g_multi (c : gf_cfg) (tl : R) : mat -> mat -> option imu -> list (list imu) -> list (list imu) -> mat -> mat -> list imu -> Prop :=
| M_nil x P fu : g_multi c tl x P fu [] [] x P []
| M_empty x P fu qs qs' x' P' new : g_multi c tl x P fu qs qs' x' P' new -> g_multi c tl x P fu ([] :: qs) ([] :: qs') x' P' new
| M_use x P fu m q qs qs' x1 P1 x' P' new : usable c tl (i_t m) -> imu_update c x P m x1 P1 ->
    g_multi c tl x1 P1 (Some (g_result x1 (i_t m) m)) qs qs' x' P' new ->
    g_multi c tl x P fu ((m :: q) :: qs) (q :: qs') x' P' (g_result x1 (i_t m) m :: new)
| M_old x P fu m q qs qs' x' P' new : ~ usable c tl (i_t m) -> g_multi c tl x P fu qs qs' x' P' new ->
    g_multi c tl x P fu ((m :: q) :: qs) (q :: qs') x' P' (match fu with Some f => f :: new | None => new end).

(** ** one iteration *)
Definition g_iteration (c : gf_cfg) (l : list gadd) (os : list gop) (g g' : gfilt) : Prop :=
  exists a d b x1 P1 tl lat,
    gyro_past c os (q_of (gf_gyro g)) a d b /\
    g_predicted c l a b (q_of (gf_gyro g)) (q_of (gf_gyro g')) (gf_x g) (gf_P g) (gf_latest g) x1 P1 tl lat /\
    (the_method c l <> MULTI_IMU -> exists ti ta new,
       g_corrected c tl lat x1 P1 (the_method c l) (q_of (gf_imu g)) (q_of (gf_av g)) ti ta (gf_latest g') (gf_x g') (gf_P g') new /\
       q_of (gf_imu g) = ti ++ q_of (gf_imu g') /\ q_of (gf_av g) = ta ++ q_of (gf_av g') /\ gf_imus g' = gf_imus g /\ gf_out g' = gf_out g ++ new) /\
    (the_method c l = MULTI_IMU -> exists new,
       g_multi c tl x1 P1 None (gf_imus g) (gf_imus g') (gf_x g') (gf_P g') new /\
       gf_imu g' = gf_imu g /\ gf_av g' = gf_av g /\ gf_latest g' = lat /\ gf_out g' = gf_out g ++ new).
(** the first estimate *)
Definition g_starts (c : gf_cfg) (os : list gop) (g : gfilt) : Prop :=
  gf_P g = g_start_cov c /\
  if dflt (q_static c) false then
    let N := Z.to_nat (dflt (q_size c) 250%Z) in
    (0 < N <= length (g_imus os))%nat /\ gf_x g = vec6 vzero (mean (map i_w (firstn N (g_imus os))))
  else gf_x g = vec6 vzero (dflt (q_bias c) vzero).
