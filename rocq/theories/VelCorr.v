(** Model of src/filter/inekf/correction/velocity_correction.cpp. *)
From Coq Require Import Reals ZArith List Bool Lia.
From Verif Require Import Res Vec3 Mat MatInv LieGroup RobotState Inekf Imu Propagation Queue.
Import ListNotations.
Local Open Scope R_scope.

(** include/drift/measurement/velocity.h: stamp and velocity *)
Record vmeas := mkVM { vm_t : R; vm_v : V3 }.

(** include/drift/filter/inekf/correction/velocity_correction.h: the object; the
    log stream est_vel_outfile_ is not modelled. *)
Record vel_corr := mkVC {
  vc_queue : list vmeas;
  vc_err : error_type;
  vc_cov : M3;         (* covariance_ *)
  vc_thr : R;          (* t_diff_thres_ *)
  vc_R : M3;           (* R_vel2body_ *)
  vc_scale : R }.      (* velocity_scale_ *)
Definition vc_set_queue (c : vel_corr) (q : list vmeas) : vel_corr :=
  mkVC q (vc_err c) (vc_cov c) (vc_thr c) (vc_R c) (vc_scale c).

(** yaml configuration: [None] = key absent *)
Record vel_cfg := mkVCfg { g_std : option R; g_thr : option R; g_quat : option quat; g_scale : option R }.
(** velocity_correction.cpp:21-65 *)
Definition VelocityCorrection (queue : list vmeas) (e : error_type) (g : vel_cfg) : vel_corr :=
  let std := dflt (g_std g) (1 / 10) in
  mkVC queue e ((std * std) *ms mid) (dflt (g_thr g) (3 / 10))
    (toRotationMatrix (dflt (g_quat g) (mkQ 1 0 0 0))) (dflt (g_scale g) 1).

(** velocity_correction.cpp:115-137: the update with a fetched measurement.  Lines
    139-143 only write a log line. *)
Definition vel_update (c : vel_corr) (m : vmeas) (s : rstate) : res rstate :=
  let s := set_time s (vm_t m) in
  let dP := dimP s in
  let* H := cput (mO 3 dP) 0 3 (ofM3 mid) in
  let* Rw := get_world_rotation s in
  let N := ofM3 (Rw *m vc_cov c *m mtr Rw) in
  let* R := get_rotation s in
  let* v := get_velocity s in
  let Z := ofV3 (R *m vc_R c *v (vc_scale c *s vm_v m) -v v) in
  CorrectRightInvariant Z H N s (vc_err c).

(** "t_diff < -t_diff_thres_" (lines 100-101) and "t_diff >= 0" (line 92) *)
Definition too_old (thr tprop t : R) : bool := if Rlt_dec (t - tprop) (- thr) then true else false.
Definition not_past (tprop t : R) : bool := if Rle_dec 0 (t - tprop) then true else false.

(** velocity_correction.cpp:74-146 [Correct].  [sched]: batches arriving before the
    first critical section (lines 84-98) and before each iteration of the loop;
    whatever has not arrived by then arrives before the call returns. *)
Definition vel_Correct (c : vel_corr) (s : rstate) (sched : list (list vmeas)) : res (bool * vel_corr * rstate) :=
  let rest bs q := vc_set_queue c (q ++ concat bs) in
  match vc_queue c ++ hd_batch sched with
  | [] => Ok (false, rest (tl_batch sched) [], s)
  | m :: q =>
    let* tp := get_propagate_time s in
    if not_past tp (vm_t m) then Ok (false, rest (tl_batch sched) (m :: q), s)
    else
      let '(r, q, bs) :=
        if too_old (vc_thr c) tp (vm_t m)
        then drain (fun m => too_old (vc_thr c) tp (vm_t m)) q (tl_batch sched)
        else (Some m, q, tl_batch sched) in
      match r with
      | None => Ok (false, rest bs q, s)
      | Some m => let* s' := vel_update c m s in Ok (true, rest bs q, s')
      end
  end.

(** velocity_correction.cpp:148-172 [initialize]: keeps only the newest; note that
    neither R_vel2body_ nor velocity_scale_ is applied.  One batch may arrive first
    (the emptiness test of line 153 is outside the lock). *)
Definition vel_initialize (c : vel_corr) (s : rstate) (arr : list vmeas) : res (bool * vel_corr * rstate) :=
  match vc_queue c ++ arr with
  | [] => Ok (false, vc_set_queue c [], s)
  | x :: q =>
    let m := last (x :: q) x in
    let* R := get_rotation s in
    let* s := set_velocity s (R *v vm_v m) in
    Ok (true, vc_set_queue c [], set_time s (vm_t m))
  end.

(** velocity_correction.cpp:174-180 [clear] *)
Definition vel_clear (c : vel_corr) : vel_corr := vc_set_queue c [].
