(** Property theorems about RobotState and SEK3 (C05 - C09, C45, C46, C48, C51). *)
From Coq Require Import Reals ZArith List Bool Lia Lra.
From Verif Require Import Res Vec3 Mat LieGroup MatInv Psd Spec SpecState LieSO3 LieSEK SEK3 RobotState
  StateProofs StateHist StateMisc.
Import ListNotations.
Local Open Scope R_scope.

(** C05: get_Xinv is the inverse, for any number of columns. *)
Theorem C05_state_inverse : forall K s, SEK K (sX s) ->
  exists Y, get_Xinv s = Ok Y /\ inverse_of (3 + K) (sX s) Y /\ SEK K Y.
Proof. exact thm_Xinv. Qed.
Print Assumptions C05_state_inverse.

(** C05: SEK3 objects with exactly two vectors obey the group laws. *)
Theorem C05_SEK3_group : forall s a, SEK 2 (kX s) -> SEK 2 (kX a) ->
  exists Y M, SEK3_inverse s = Ok Y /\ inverse_of 5 (kX s) (kX Y) /\ SEK 2 (kX Y) /\
    SEK3_mul s a = Ok M /\ SEK 2 (kX M) /\ kX M = kX s *M kX a /\ kK Y = kK s /\ kK M = kK s.
Proof. exact thm_SEK3_group. Qed.
Print Assumptions C05_SEK3_group.

(** C05, refuted for SEK3::inverse: with any augmented column the result is never the inverse. *)
Theorem C05_SEK3_inverse_refuted : forall K s, (3 <= K)%nat -> SEK K (kX s) ->
  exists Y, SEK3_inverse s = Ok Y /\ nr (kX Y) = 5%nat /\ ~ inverse_of (3 + K) (kX s) (kX Y).
Proof. exact thm_SEK3_inverse_refuted. Qed.
Print Assumptions C05_SEK3_inverse_refuted.

Example C05_hyps : SEK 4 (sek 4 mid (fun k => mkV (INR k) 1 2)).
Proof. apply SEK_sek, SO3_id. Qed.

(** C06: dimensions after every valid history; in particular the history never fails. *)
Theorem C06_dimensions : forall os, valid_history spec_init os ->
  exists h s, hist_run os = Ok (h, s) /\
    nr (sX s) = dimX s /\ dimX s = (5 + length (ids (spec_run os)))%nat /\
    nr (sP s) = dimP s /\ nr (sQc s) = dimQc s /\ dimTheta s = 6%nat /\ nc (sTheta s) = 1%nat /\
    dimP s = (3 * dimX s + dimTheta s - 6)%nat /\ dimQc s = dimP s /\ length (scmap s) = dimX s.
Proof. exact thm_dims. Qed.
Print Assumptions C06_dimensions.

(** C07: every live id reads its own landmark's position and covariance; every
    covariance block between live labels is the one stored for these labels. *)
Theorem C07_ids_designate_their_landmark : forall os, valid_history spec_init os ->
  exists h s, hist_run os = Ok (h, s) /\
    let m := spec_run os in
    (forall p, In p (ids m) -> exists i, nth_error h p = Some (Z.of_nat i) /\ (5 <= i < dimX s)%nat /\
       get_aug_state s i = Ok (val m p) /\ get_aug_cov s i = Ok (cov m (Lm p) (Lm p))) /\
    (forall p q, In p (ids m) -> In q (ids m) -> nth_error h p = nth_error h q -> p = q) /\
    (forall a b, live (ids m) a -> live (ids m) b ->
       cgetM3 (sP s) (3 * block_of (ids m) a) (3 * block_of (ids m) b) = Ok (cov m a b)).
Proof. exact thm_ids. Qed.
Print Assumptions C07_ids_designate_their_landmark.

(** a non-trivial history: three adds, the middle landmark deleted, a fourth added *)
Example C07_hyps : valid_history spec_init
  [SAdd (mkV 1 0 0) (meye 18) mid; SAdd (mkV 2 0 0) (meye 21) mid; SAdd (mkV 3 0 0) (meye 24) mid;
   SDel 1%nat; SSetX (meye 7); SAdd (mkV 4 0 0) (meye 24) mid; SDel 0%nat].
Proof. cbn. repeat split; auto. Qed.

(** C08: deletion removes exactly the landmark's rows and columns. *)
Theorem C08_delete_marginalises : forall os p, valid_history spec_init os -> In p (ids (spec_run os)) ->
  exists h s i h' s', hist_run os = Ok (h, s) /\ nth_error h p = Some (Z.of_nat i) /\
    del_aug_state h s i = Ok (h', s') /\
    rc_deleted i 1 (sX s) (sX s') /\
    rc_deleted (3 * i - 6) 3 (sP s) (sP s') /\
    rc_deleted (3 * i - 6) 3 (sQc s) (sQc s') /\
    sTheta s' = sTheta s /\ st s' = st s /\ stprop s' = stprop s /\ sbav s' = sbav s /\
    sen s' = sen s /\ stype s' = stype s /\ sslip s' = sslip s /\
    (forall q j, In q (ids (spec_run os)) -> q <> p -> nth_error h q = Some j ->
        nth_error h' q = Some (if (j <? Z.of_nat i)%Z then j else (j - 1)%Z)).
Proof. exact thm_del. Qed.
Print Assumptions C08_delete_marginalises.

(** C08: adding a landmark and deleting it again restores the state (except Qc, see C09). *)
Theorem C08_add_then_delete : forall os v Pa N, valid_history spec_init os ->
  square (dim_err (ids (spec_run os)) + 3) Pa ->
  exists h s h1 s1 i h2 s2, hist_run os = Ok (h, s) /\
    hist_step (h, s) (SAdd v Pa N) = Ok (h1, s1) /\
    nth_error h1 (length h) = Some (Z.of_nat i) /\ get_aug_state s1 i = Ok v /\
    del_aug_state h1 s1 i = Ok (h2, s2) /\
    sX s2 = sX s /\ sTheta s2 = sTheta s /\ scmap s2 = scmap s /\
    (forall p, In p (ids (spec_run os)) -> nth_error h2 p = nth_error h p) /\
    (rc_deleted (3 * i - 6) 3 Pa (sP s) -> sP s2 = sP s).
Proof. exact thm_add_del. Qed.
Print Assumptions C08_add_then_delete.

(** the covariance hypothesis of the last clause is met, e.g. by bordering P with the identity *)
Example C08_hyps : rc_deleted 9 3 (meye 18) (meye 15).
Proof.
  unfold rc_deleted. split; [reflexivity|]. split; [reflexivity|]. intros r c Hr Hc. mdim.
  rewrite !ent_eye by (try (destruct (Nat.ltb_spec r 9)); try (destruct (Nat.ltb_spec c 9)); lia).
  destruct (Nat.ltb_spec r 9), (Nat.ltb_spec c 9);
    repeat match goal with |- context [Nat.eqb ?a ?b] => destruct (Nat.eqb_spec a b) end; try lia; reflexivity.
Qed.

(** C09: what the code guarantees: only the most recently created contact has its noise. *)
Theorem C09_only_newest_contact_has_noise_partial : forall os, valid_history spec_init os ->
  exists h s, hist_run os = Ok (h, s) /\
    let m := spec_run os in
    (forall p, In p (ids m) -> exists i, nth_error h p = Some (Z.of_nat i) /\
       cgetM3 (sQc s) (3 * i - 6) (3 * i - 6) = Ok (if Nat.eqb (S p) (next m) then noise m p else mzero)) /\
    (forall p i r c, In p (ids m) -> S p = next m -> nth_error h p = Some (Z.of_nat i) ->
       (r < 3 * i - 6 \/ 3 * i - 3 <= r \/ c < 3 * i - 6 \/ 3 * i - 3 <= c)%nat -> ent (sQc s) r c = 0).
Proof. exact thm_noise. Qed.
Print Assumptions C09_only_newest_contact_has_noise_partial.

(** C09, refuted: with two contacts the older one has lost its noise. *)
Theorem C09_contact_noise_refuted : exists os p h s i, valid_history spec_init os /\ hist_run os = Ok (h, s) /\
  In p (ids (spec_run os)) /\ nth_error h p = Some (Z.of_nat i) /\
  noise (spec_run os) p = mid /\ cgetM3 (sQc s) (3 * i - 6) (3 * i - 6) = Ok mzero /\ mzero <> mid.
Proof. exact thm_noise_refuted. Qed.
Print Assumptions C09_contact_noise_refuted.

(** C45: world getters, body rotation and body matrix; the body velocity and
    position getters return R^T v and R^T p, i.e. minus the columns of the inverse. *)
Theorem C45_world_and_body_accessors_partial : forall K s, stype s = WorldCentric -> SEK K (sX s) -> (2 <= K)%nat ->
  get_world_X s = Ok (sX s) /\ get_world_rotation s = Ok (rot (sX s)) /\
  get_world_velocity s = Ok (col (sX s) 0) /\ get_world_position s = Ok (col (sX s) 1) /\
  exists Y, get_body_X s = Ok Y /\ inverse_of (3 + K) (sX s) Y /\
    get_body_rotation s = Ok (rot Y) /\
    get_body_velocity s = Ok (vneg (col Y 0)) /\ get_body_position s = Ok (vneg (col Y 1)) /\
    get_body_velocity s = Ok (mtr (rot (sX s)) *v col (sX s) 0).
Proof. exact thm_world_accessors. Qed.
Print Assumptions C45_world_and_body_accessors_partial.

Theorem C45_body_velocity_refuted : exists s Y v, stype s = WorldCentric /\ SEK 2 (sX s) /\
  get_body_X s = Ok Y /\ get_body_velocity s = Ok v /\ v <> col Y 0.
Proof. exact thm_body_accessors_refuted. Qed.
Print Assumptions C45_body_velocity_refuted.

Theorem C45_set_get_roundtrip : forall K s, SEK K (sX s) -> (2 <= K)%nat ->
  nr (sTheta s) = 6%nat -> nc (sTheta s) = 1%nat ->
  forall Rm v p bg ba, exists s1 s2 s3 s4 s5,
    set_rotation s Rm = Ok s1 /\ set_velocity s1 v = Ok s2 /\ set_position s2 p = Ok s3 /\
    set_gyroscope_bias s3 bg = Ok s4 /\ set_accelerometer_bias s4 ba = Ok s5 /\
    get_rotation s5 = Ok Rm /\ get_velocity s5 = Ok v /\ get_position s5 = Ok p /\
    get_gyroscope_bias s5 = Ok bg /\ get_accelerometer_bias s5 = Ok ba /\
    (SO3 Rm -> SEK K (sX s5)) /\
    (forall i, (5 <= i < 3 + K)%nat -> get_aug_state s5 i = get_aug_state s i) /\ sP s5 = sP s.
Proof. exact thm_roundtrip. Qed.
Print Assumptions C45_set_get_roundtrip.

Example C45_hyps : stype RS_default = WorldCentric /\ SEK 2 (sX RS_default) /\
  nr (sTheta RS_default) = 6%nat /\ nc (sTheta RS_default) = 1%nat.
Proof. repeat split; try reflexivity; apply (SEK_eye 2). Qed.

(** C46, refuted for mutation of a copy: deleting a landmark in a copy of the
    state re-targets the ids of the original. *)
Theorem C46_copy_shares_ids_refuted : exists os h s h' s' p v w,
  valid_history spec_init os /\ hist_run os = Ok (h, s) /\ In p (ids (spec_run os)) /\
  nth_error h p = Some 6%Z /\ get_aug_state s 6 = Ok v /\
  del_aug_state h s 5 = Ok (h', s') /\
  nth_error h' p = Some 5%Z /\ get_aug_state s 5 = Ok w /\ v <> w.
Proof. exact thm_copy_refuted. Qed.
Print Assumptions C46_copy_shares_ids_refuted.

(** C48: the parts that hold *)
Theorem C48_add_aug_bias_partial : forall s b n, nr (sTheta s) = (6 + 3 * n)%nat -> nc (sTheta s) = 1%nat ->
  exists s', add_aug_bias s b = Ok s' /\ nr (sTheta s') = (6 + 3 * (n + 1))%nat /\ nc (sTheta s') = 1%nat /\
    (forall i, (i < 6 + 3 * n)%nat -> ent (sTheta s') i 0 = ent (sTheta s) i 0) /\
    getV3 (sTheta s') (6 + 3 * n) 0 = b /\ (forall i, get_aug_bias s' i = Ok b) /\ sX s' = sX s /\ sP s' = sP s.
Proof. exact thm_aug_bias_add. Qed.
Print Assumptions C48_add_aug_bias_partial.

Theorem C48_del_first_aug_bias_partial : forall s n, nr (sTheta s) = (6 + 3 * (n + 1))%nat -> nc (sTheta s) = 1%nat ->
  exists s', del_aug_bias s 5 = Ok s' /\ nr (sTheta s') = (6 + 3 * n)%nat /\
   forall i, (i < 6 + 3 * n)%nat -> ent (sTheta s') i 0 = ent (sTheta s) (if (i <? 6)%nat then i else (i + 3)%nat) 0.
Proof. exact thm_aug_bias_del_first. Qed.
Print Assumptions C48_del_first_aug_bias_partial.

Theorem C48_aug_bias_refuted : exists s s1 s2 s3,
  add_aug_bias s (mkV 1 2 3) = Ok s1 /\ add_aug_bias s1 (mkV 4 5 6) = Ok s2 /\
  get_aug_bias s2 5 = Ok (mkV 4 5 6) /\
  del_aug_bias s2 6 = Ok s3 /\ get_aug_bias s3 5 <> Ok (mkV 1 2 3).
Proof. exact thm_aug_bias_refuted. Qed.
Print Assumptions C48_aug_bias_refuted.

(** C51: copy_diag_X / copy_diag_Xinv build mutually inverse block-diagonal matrices. *)
Theorem C51_copy_diag : forall K s n, SEK K (sX s) -> exists C Ci,
  copy_diag_X s n (mO 0 0) = Ok C /\ copy_diag_Xinv s n (mO 0 0) = Ok Ci /\
  square (n * (3 + K)) C /\ square (n * (3 + K)) Ci /\
  (forall k l a b, (k < n)%nat -> (l < n)%nat -> (a < 3 + K)%nat -> (b < 3 + K)%nat ->
    ent C (k * (3 + K) + a) (l * (3 + K) + b) = if Nat.eqb k l then ent (sX s) a b else 0) /\
  inverse_of (n * (3 + K)) C Ci.
Proof. exact thm_copy_diag. Qed.
Print Assumptions C51_copy_diag.
