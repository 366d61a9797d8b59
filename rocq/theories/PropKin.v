(** Properties C33-C35: the Mini Cheetah's leg kinematics. *)
From Coq Require Import Reals ZArith List Bool Arith Lia Lra.
From Verif Require Import Res Vec3 Mat Spec LegCorr SpecFilter SpecProp LieSO3 KinGen Kinematics SpecKin KinEq KinThms KinVel.
Import ListNotations.
Local Open Scope R_scope.

(** C33: for every leg the generated position function and its Jacobian are total (every cell
    written), the Jacobian times the joint velocities is the velocity of the position along
    any joint trajectory, and the columns of the other legs' joints are zero. *)
Theorem C33_jacobian_is_derivative : forall l, exists P J : (nat -> R) -> mat,
  (forall q, p_Body_to l q = Ok (P q) /\ Jp_Body_to l q = Ok (J q) /\ nr (P q) = 3%nat /\ nc (P q) = 1%nat /\ nr (J q) = 3%nat /\ nc (J q) = 12%nat) /\
  (forall q t dq, moves q t dq -> entd (fun s => P (q s)) t (J (q t) *M col12 dq)) /\
  (forall q i j, (i < 3)%nat -> (j < 12)%nat -> (j < 3 * leg_id l \/ 3 * leg_id l + 3 <= j)%nat -> ent (J q) i j = 0).
Proof. exact thm_jacobian. Qed.
Print Assumptions C33_jacobian_is_derivative.
(** entry (i, j) is the partial derivative of coordinate i by joint j *)
Theorem C33_jacobian_entries : forall l, exists P J : (nat -> R) -> mat, (forall q, p_Body_to l q = Ok (P q) /\ Jp_Body_to l q = Ok (J q)) /\
  forall q i j, (i < 3)%nat -> (j < 12)%nat -> derivable_pt_lim (fun x => ent (P (fun k => if Nat.eqb k j then x else q k)) i 0) (q j) (ent (J q) i j).
Proof. exact thm_partial. Qed.
Print Assumptions C33_jacobian_entries.
(** the positions and rotations are those of the robot's three-joint chains *)
Theorem C33_positions_are_the_leg_chains : forall l q, p_Body_to l q = Ok (ofV3 (foot_pos (leg_geom l) q)) /\ R_Body_to l q = Ok (ofM3 (foot_rot (leg_geom l) q)).
Proof. exact thm_chain. Qed.
Print Assumptions C33_positions_are_the_leg_chains.
(** ComputeKinematics leaves each foot's position and its own 3x3 Jacobian block where the getters look. *)
Theorem C33_compute_kinematics : forall m, kin_shaped m -> length (k_enc m) = 12%nat -> length (k_contacts m) = 4%nat ->
  exists m', ComputeKinematics m = Ok m' /\ kin_shaped m' /\ k_contacts m' = k_contacts m /\ k_enc m' = k_enc m /\ k_denc m' = k_denc m /\
  forall l, get_kin_pos m' (leg_id l) = Ok (foot_pos (leg_geom l) (fun k => nth k (k_enc m) 0)) /\
    exists J, Jp_Body_to l (fun k => nth k (k_enc m) 0) = Ok J /\ get_J m' (leg_id l) = Ok (sub J 0 (3 * leg_id l) 3 3).
Proof. exact thm_compute. Qed.
Print Assumptions C33_compute_kinematics.
(** What the leg correction reads from such a measurement: contacts, foot positions, and a
    Jacobian that maps the leg's own joint velocities to the foot velocity. *)
Theorem C33_leg_measurement : forall t m, kin_shaped m -> length (k_enc m) = 12%nat -> length (k_contacts m) = 4%nat ->
  exists lm, leg_view t m = Ok lm /\ lm_t lm = t /\ length (lm_legs lm) = 4%nat /\
  (forall w v, get_init_velocity m w = Ok v -> lm_initv lm w = v) /\
  forall l, exists o, nth_error (lm_legs lm) (leg_id l) = Some o /\ nth_error (k_contacts m) (leg_id l) = Some (lo_contact o) /\
    lo_pos o = foot_pos (leg_geom l) (fun k => nth k (k_enc m) 0) /\
    forall q s dq, (forall k, (k < 12)%nat -> q s k = nth k (k_enc m) 0) -> moves q s dq ->
      vderiv (fun s => foot_pos (leg_geom l) (q s)) s (lo_J o *v mkV (dq (3 * leg_id l)%nat) (dq (3 * leg_id l + 1)%nat) (dq (3 * leg_id l + 2)%nat)).
Proof. exact thm_leg_measurement. Qed.
Print Assumptions C33_leg_measurement.
(** wrong sizes are refused, and the required shape holds for every object that can be built *)
Theorem C33_object_shapes : kin_shaped MCK_default /\ (forall e d c, kin_shaped (MCK_make e d c)) /\
  (forall m c, kin_shaped m -> kin_shaped (set_contact m c)) /\ (forall m e, kin_shaped m -> kin_shaped (set_joint_state m e)) /\ (forall m e, kin_shaped m -> kin_shaped (set_joint_state_velocity m e)).
Proof. exact thm_shapes. Qed.
Print Assumptions C33_object_shapes.
Example C33_example : moves (fun s k => if Nat.eqb k 4 then s else 1) 2 (fun k => if Nat.eqb k 4 then 1 else 0) /\
  kin_shaped (MCK_make (repeat 1 12) (repeat 0 12) [true; false; false; true]) /\ length (repeat 1 12) = 12%nat.
Proof.
  split; [|split; [apply C33_object_shapes|reflexivity]]. intros k Hk. destruct (Nat.eqb k 4); [apply (derivable_pt_lim_id 2)|apply derivable_pt_lim_const].
Qed.
(** the front right foot straight down: (0.19, -0.049 - 0.062, -0.209 - 0.2075) *)
Example C33_straight_leg : p_Body_to FR (fun _ => 0) = Ok (ofV3 (mkV (19 / 100) (- 111 / 1000) (- 4165 / 10000))).
Proof.
  rewrite (proj1 (C33_positions_are_the_leg_chains FR _)). do 2 f_equal. unfold foot_pos. cbn [leg_geom g_hip g_off g_thigh g_shank g_joint]. unfold rotx, roty. rewrite Ropp_0, cos_0, sin_0.
  unfold vadd, mv. cbn [v0 v1 v2 m00 m01 m02 m10 m11 m12 m20 m21 m22]. f_equal; field.
Qed.

(** C34: the transforms are rigid motions made of the generated rotation and position, the
    spatial and body Jacobians are their left and right twists, and the four one-sided
    Jacobians are the halves of those. *)
Theorem C34_transforms_and_twists : forall l, exists H A P Js Jb : (nat -> R) -> mat,
  (forall q, H_Body_to l q = Ok (H q) /\ R_Body_to l q = Ok (A q) /\ p_Body_to l q = Ok (P q) /\ Js_Body_to l q = Ok (Js q) /\ Jb_Body_to l q = Ok (Jb q) /\
    nr (H q) = 4%nat /\ nc (H q) = 4%nat /\ nr (Js q) = 6%nat /\ nc (Js q) = 12%nat /\ nr (Jb q) = 6%nat /\ nc (Jb q) = 12%nat) /\
  (forall q, SO3 (getM3 (A q) 0 0) /\ sub (H q) 0 0 3 3 = A q /\ sub (H q) 0 3 3 1 = P q /\ (forall j, (j < 4)%nat -> ent (H q) 3 j = if Nat.eqb j 3 then 1 else 0)) /\
  (forall q t dq, moves q t dq -> entd (fun s => H (q s)) t (twist4 (Js (q t) *M col12 dq) *M H (q t)) /\ entd (fun s => H (q s)) t (H (q t) *M twist4 (Jb (q t) *M col12 dq))) /\
  (forall q, Jws_Body_to l q = Ok (sub (Js q) 0 0 3 12) /\ Jvs_Body_to l q = Ok (sub (Js q) 3 0 3 12) /\ Jwb_Body_to l q = Ok (sub (Jb q) 0 0 3 12) /\ Jvb_Body_to l q = Ok (sub (Jb q) 3 0 3 12)).
Proof. exact thm_twists. Qed.
Print Assumptions C34_transforms_and_twists.
Example C34_example : moves (fun s k => if Nat.eqb k 4 then s else 1) 2 (fun k => if Nat.eqb k 4 then 1 else 0).
Proof. exact (proj1 C33_example). Qed.

(** C35: with the first foot in contact being [l], a body moving with rate w and velocity u
    (body frame) and joints at the measured angles and rates keeps that foot still in the
    world iff u is the returned velocity ... *)
Theorem C35_stance_foot_is_still : forall m w l, length (k_enc m) = 12%nat -> length (k_denc m) = 12%nat -> first_contact (k_contacts m) l ->
  exists v, get_init_velocity m w = Ok v /\
  forall (Rb : R -> M3) (pb : R -> V3) (q : R -> nat -> R) t u,
    SO3 (Rb t) -> mderiv Rb t (Rb t *m crossm w) -> vderiv pb t (Rb t *v u) ->
    (forall k, (k < 12)%nat -> q t k = nth k (k_enc m) 0) -> moves q t (fun k => nth k (k_denc m) 0) ->
    (vderiv (fun s => pb s +v Rb s *v foot_pos (leg_geom l) (q s)) t vzero <-> u = v).
Proof. exact thm_init_velocity. Qed.
Print Assumptions C35_stance_foot_is_still.
(** ... it is zero if no foot is in contact ... *)
Theorem C35_no_contact : forall m w, k_contacts m = repeat false 4 -> get_init_velocity m w = Ok vzero.
Proof. exact thm_no_contact. Qed.
Print Assumptions C35_no_contact.
(** ... and a default-constructed measurement with a contact set, which has no joint
    velocities, fails an assertion instead of giving a velocity. *)
Theorem C35_default_object_fails : forall w cs l, first_contact cs l -> get_init_velocity (set_contact MCK_default cs) w = Fail EigenAssert.
Proof. exact thm_default_velocity. Qed.
Print Assumptions C35_default_object_fails.
Example C35_example : first_contact [false; true; false; true] FL /\ SO3 mid /\
  mderiv (fun _ => mid) 0 (mid *m crossm vzero) /\ vderiv (fun _ => vzero) 0 (mid *v vzero).
Proof.
  split; [split; [reflexivity|]; intros l' Hl; destruct l'; cbn in *; try lia; reflexivity|]. split; [split; [ring3|unfold det3, mid; cbn; ring]|]. split.
  - intros i j Hi Hj. replace (mget (mid *m crossm vzero) i j) with 0; [apply derivable_pt_lim_const|]. destruct i as [|[|[|i]]]; try lia; destruct j as [|[|[|j]]]; try lia; cbn; ring.
  - intros i Hi. replace (vget (mid *v vzero) i) with 0; [apply derivable_pt_lim_const|]. destruct i as [|[|[|i]]]; try lia; cbn; ring.
Qed.
