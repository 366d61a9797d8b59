(** Model of src/filter/inekf/correction/legged_kinematics_correction.cpp. *)
From Coq Require Import Reals ZArith List Bool Lia.
From Verif Require Import Res Vec3 Mat MatInv LieGroup RobotState Inekf Imu Propagation Queue VelCorr.
Import ListNotations.
Local Open Scope R_scope.

(** include/drift/measurement/legged_kinematics.h: a measurement is what its getters
    return once ComputeKinematics has run: per leg the contact flag, foot position and
    3x3 Jacobian block, and the initial velocity as a function of the body rate
    (virtual get_init_velocity). *)
Record leg_obs := mkLO { lo_contact : bool; lo_pos : V3; lo_J : M3 }.
Record lmeas := mkLM { lm_t : R; lm_legs : list leg_obs; lm_initv : V3 -> V3 }.

(** include/drift/filter/inekf/correction/legged_kinematics_correction.h:118-132;
    the unordered_map is a partial function from leg ids to addresses. *)
Record leg_corr := mkLC {
  lc_queue : list lmeas;
  lc_err : error_type;
  lc_enc_std : R;
  lc_kin_std : R;
  lc_contact_cov : M3;
  lc_thr : R;
  lc_map : nat -> option nat }.
Definition lc_set_queue (c : leg_corr) (q : list lmeas) : leg_corr :=
  mkLC q (lc_err c) (lc_enc_std c) (lc_kin_std c) (lc_contact_cov c) (lc_thr c) (lc_map c).
Definition lc_set_map (c : leg_corr) (m : nat -> option nat) : leg_corr :=
  mkLC (lc_queue c) (lc_err c) (lc_enc_std c) (lc_kin_std c) (lc_contact_cov c) (lc_thr c) m.
Definition mupd (m : nat -> option nat) (k : nat) (v : option nat) (x : nat) : option nat :=
  if Nat.eqb x k then v else m x.

Record leg_cfg := mkLCfg { h_enc : option R; h_kin : option R; h_contact : option R; h_thr : option R }.
(** legged_kinematics_correction.cpp:10-41 *)
Definition LeggedKinematicsCorrection (queue : list lmeas) (e : error_type) (g : leg_cfg) : leg_corr :=
  let cs := dflt (h_contact g) (1 / 10) in
  mkLC queue e (dflt (h_enc g) (1 / 100)) (dflt (h_kin g) (5 / 100)) ((cs * cs) *ms mid) (dflt (h_thr g) (3 / 10))
    (fun _ => None).

(** line 106-109: covariance of the foot position *)
Definition leg_cov (c : leg_corr) (o : leg_obs) : M3 :=
  lo_J o *m ((lc_enc_std c * lc_enc_std c) *ms mid) *m mtr (lo_J o) +m (lc_kin_std c * lc_kin_std c) *ms mid.

(** lines 131-172: append one leg to the stacked H, N, Z *)
Definition stack_leg (s : rstate) (col_id : Z) (cov : M3) (pose : V3) (HNZ : mat * mat * mat) : res (mat * mat * mat) :=
  let '(H, N, Z) := HNZ in
  let dP := dimP s in
  let* i := idx (3 * col_id - Z.of_nat (dimTheta s)) in
  let si := nr H in
  let H := cresize H (si + 3) dP in
  let* H := cput H si 0 (mO 3 dP) in
  let sg := match stype s with WorldCentric => 1 | BodyCentric => - 1 end in
  let* H := cput H si 6 (ofM3 ((- sg) *ms mid)) in
  let* H := cput H si i (ofM3 (sg *ms mid)) in
  let si := nr N in
  let N := cresize N (si + 3) (si + 3) in
  let* N := cput N si 0 (mO 3 si) in
  let* N := cput N 0 si (mO si 3) in
  let* Rw := get_world_rotation s in
  let* N := cput N si si (ofM3 (Rw *m cov *m mtr Rw)) in
  let si := nr Z in
  let Z := cresize Z (si + 3) 1 in
  let* R := get_rotation s in
  let* p := get_position s in
  let* ci := idx col_id in
  let* d := get_aug_state s ci in
  let z := match stype s with
           | WorldCentric => R *v pose -v (d -v p)
           | BodyCentric => mtr R *v (pose -v (p -v d)) end in
  let* Z := cput Z si 0 (ofV3 z) in
  Ok (H, N, Z).

(** lines 102-177: the loop over the legs; accumulates the stacked observation, the
    legs to remove and the legs to add (with pose and covariance) *)
Fixpoint scan_legs (c : leg_corr) (h : heap) (s : rstate) (id : nat) (legs : list leg_obs)
    (acc : (mat * mat * mat) * list nat * list (nat * V3 * M3)) : res ((mat * mat * mat) * list nat * list (nat * V3 * M3)) :=
  match legs with
  | [] => Ok acc
  | o :: legs =>
    let '(HNZ, rem, new) := acc in
    let* acc :=
      match lo_contact o, lc_map c id with
      | false, Some _ => Ok (HNZ, rem ++ [id], new)
      | true, None => Ok (HNZ, rem, new ++ [(id, lo_pos o, leg_cov c o)])
      | true, Some p =>
        let* z := heap_get h (Some p) in
        let* HNZ := stack_leg s z (leg_cov c o) (lo_pos o) HNZ in
        Ok (HNZ, rem, new)
      | false, None => Ok acc
      end in
    scan_legs c h s (S id) legs acc
  end.

(** lines 189-192 *)
Definition remove_leg (hsm : heap * rstate * (nat -> option nat)) (id : nat) : res (heap * rstate * (nat -> option nat)) :=
  let '(h, s, m) := hsm in
  let* z := heap_get h (m id) in
  let* i := idx z in
  let* '(h, s) := del_aug_state h s i in
  Ok (h, s, mupd m id None).

(** lines 206-236: F and G *)
Definition aug_F_G (e : error_type) (s : rstate) (pose : V3) : res (mat * mat) :=
  let dP := dimP s in let dT := dimTheta s in
  let* k := idx (Z.of_nat dP - Z.of_nat dT) in
  let F := mO (dP + 3) dP in
  let* F := cput F 0 0 (meye k) in
  let* F := cput F (k + 3) k (meye dT) in
  let G := mO (nr F) 3 in
  let* gi := idx (Z.of_nat (nr G) - Z.of_nat dT - 3) in
  match stype s, e with
  | WorldCentric, RightInvariant | BodyCentric, LeftInvariant =>
    let* F := cput F k 6 (ofM3 mid) in
    let* Rw := get_world_rotation s in
    let* G := cput G gi 0 (ofM3 Rw) in
    Ok (F, G)
  | _, _ =>
    let* F := cput F k 6 (ofM3 mid) in
    let* F := cput F k 0 (ofM3 (skew (vneg pose))) in
    let* G := cput G gi 0 (ofM3 mid) in
    Ok (F, G)
  end.

(** lines 197-251: one new contact.  P_aug is carried along by the loop. *)
Definition add_leg (c : leg_corr) (hsmP : heap * rstate * (nat -> option nat) * mat) (n : nat * V3 * M3)
    : res (heap * rstate * (nat -> option nat) * mat) :=
  let '(h, s, m, P) := hsmP in
  let '(id, pose, cov) := n in
  let* p := get_position s in
  let* R := get_rotation s in
  let aug := match stype s with WorldCentric => p +v R *v pose | BodyCentric => p -v pose end in
  let* '(F, G) := aug_F_G (lc_err c) s pose in
  let* A := cmul F P in
  let* A := cmul A (mT F) in
  let* B := cmul G (ofM3 cov) in
  let* B := cmul B (mT G) in
  let* P := cadd A B in
  let '(h, a) := heap_new h (Z.of_nat (dimX s)) in
  let m := mupd m id (Some a) in
  let* '(s, aug_idx) := add_aug_state s aug P (lc_contact_cov c) (Some a) in
  let* h := heap_set h (Some a) (Z.of_nat aug_idx) in
  Ok (h, s, m, P).

(** lines 97-254: everything after a measurement has been fetched *)
Definition leg_update (c : leg_corr) (h : heap) (m : lmeas) (s : rstate) : res (leg_corr * heap * rstate) :=
  let s := set_time s (lm_t m) in
  let* '(HNZ, rem, new) := scan_legs c h s 0 (lm_legs m) ((mO 0 0, mO 0 0, mO 0 1), [], []) in
  let '(H, N, Z) := HNZ in
  let* s :=
    if (0 <? nr Z)%nat then
      match stype s with
      | WorldCentric => CorrectRightInvariant Z H N s (lc_err c)
      | BodyCentric => CorrectLeftInvariant Z H N s (lc_err c)
      end
    else Ok s in
  let* '(h, s, mp) := foldM remove_leg (h, s, lc_map c) rem in
  let* '(h, s, mp, _) := foldM (add_leg c) (h, s, mp, sP s) new in
  Ok (lc_set_map c mp, h, s).

(** lines 49-255 [Correct].  A measurement from the future (t_diff > threshold) only
    prints a message. *)
Definition leg_Correct (c : leg_corr) (h : heap) (s : rstate) (sched : list (list lmeas)) : res (bool * leg_corr * heap * rstate) :=
  match lc_queue c ++ hd_batch sched with
  | [] => Ok (false, lc_set_queue c (concat (tl_batch sched)), h, s)
  | m :: q =>
    let* tp := get_propagate_time s in
    let old m := too_old (lc_thr c) tp (lm_t m) in
    let '(r, q, bs) := if old m then drain old q (tl_batch sched) else (Some m, q, tl_batch sched) in
    let c := lc_set_queue c (q ++ concat bs) in
    match r with
    | None => Ok (false, c, h, s)
    | Some m => let* '(c, h, s) := leg_update c h m s in Ok (true, c, h, s)
    end
  end.

(** lines 257-284 [initialize] *)
Definition leg_initialize (c : leg_corr) (s : rstate) (arr : list lmeas) : res (bool * leg_corr * rstate) :=
  match lc_queue c ++ arr with
  | [] => Ok (false, lc_set_queue c [], s)
  | x :: q =>
    let m := last (x :: q) x in
    let* w := get_body_angular_velocity s in
    let* R := get_rotation s in
    let* s := set_velocity s (R *v lm_initv m w) in
    Ok (true, lc_set_queue c [], set_time s (lm_t m))
  end.

(** lines 286-294 [clear] *)
Definition leg_clear (c : leg_corr) : leg_corr := lc_set_map (lc_set_queue c []) (fun _ => None).
