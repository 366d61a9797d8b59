(** Property C85: the state objects: constructors, getters, setters. *)
From Coq Require Import Reals ZArith List Bool Arith Lia Lra.
From Verif Require Import Res Vec3 Mat LieGroup MatInv Psd Spec SpecState LieSO3 LieSEK SEK3 RobotState StateProofs StateHist StateMisc SpecAcc Acc.
Import ListNotations.
Local Open Scope R_scope.

(** Setters of the mean change one block and nothing else; getters read the same blocks. *)
Theorem C85_mean_accessors : forall s, (3 <= nr (sX s))%nat -> (5 <= nc (sX s))%nat ->
  (forall A, exists s', set_rotation s A = Ok s' /\ overwritten 0 0 (ofM3 A) (sX s) (sX s') /\ only_mean s s') /\
  (forall v, exists s', set_velocity s v = Ok s' /\ overwritten 0 3 (ofV3 v) (sX s) (sX s') /\ only_mean s s') /\
  (forall p, exists s', set_position s p = Ok s' /\ overwritten 0 4 (ofV3 p) (sX s) (sX s') /\ only_mean s s') /\
  (forall i v, (i < nc (sX s))%nat -> exists s', set_aug_state s i v = Ok s' /\ overwritten 0 i (ofV3 v) (sX s) (sX s') /\ only_mean s s') /\
  get_rotation s = Ok (getM3 (sX s) 0 0) /\ get_velocity s = Ok (getV3 (sX s) 0 3) /\ get_position s = Ok (getV3 (sX s) 0 4) /\
  (forall i, (i < nc (sX s))%nat -> get_aug_state s i = Ok (getV3 (sX s) 0 i) /\ get_vector s i = Ok (getV3 (sX s) 0 i)).
Proof. exact thm_mean_setters. Qed.
Print Assumptions C85_mean_accessors.
Theorem C85_bias_accessors : forall s, (6 <= nr (sTheta s))%nat -> nc (sTheta s) = 1%nat ->
  (forall b, exists s', set_gyroscope_bias s b = Ok s' /\ overwritten 0 0 (ofV3 b) (sTheta s) (sTheta s') /\ only_biases s s') /\
  (forall b, exists s', set_accelerometer_bias s b = Ok s' /\ overwritten 3 0 (ofV3 b) (sTheta s) (sTheta s') /\ only_biases s s') /\
  get_gyroscope_bias s = Ok (seg (sTheta s) 0) /\ get_accelerometer_bias s = Ok (seg (sTheta s) 3).
Proof. exact thm_bias_setters. Qed.
Print Assumptions C85_bias_accessors.
Theorem C85_covariance_setters : forall s n, nr (sP s) = n -> nc (sP s) = n -> (15 <= n)%nat -> forall c,
  (exists s', set_rotation_covariance s c = Ok s' /\ overwritten 0 0 (ofM3 c) (sP s) (sP s') /\ only_cov s s') /\
  (exists s', set_velocity_covariance s c = Ok s' /\ overwritten 3 3 (ofM3 c) (sP s) (sP s') /\ only_cov s s') /\
  (exists s', set_position_covariance s c = Ok s' /\ overwritten 6 6 (ofM3 c) (sP s) (sP s') /\ only_cov s s') /\
  (exists s', set_gyroscope_bias_covariance s c = Ok s' /\ overwritten 9 9 (ofM3 c) (sP s) (sP s') /\ only_cov s s') /\
  (exists s', set_accelerometer_bias_covariance s c = Ok s' /\ overwritten 12 12 (ofM3 c) (sP s) (sP s') /\ only_cov s s').
Proof. exact thm_cov_setters. Qed.
Print Assumptions C85_covariance_setters.
Theorem C85_plain_members : forall s, (forall t, get_time (set_time s t) = Ok t /\ get_propagate_time (set_time s t) = get_propagate_time s) /\
  (forall t, get_propagate_time (set_propagate_time s t) = Ok t /\ get_time (set_propagate_time s t) = get_time s) /\
  (forall w, get_body_angular_velocity (set_body_angular_velocity s w) = Ok w) /\
  (forall b, sen (set_enable_imu_bias_update s b) = b) /\ (forall f, sslip (set_slip_flag s f) = f) /\
  (forall t w b f, let s' := set_slip_flag (set_enable_imu_bias_update (set_body_angular_velocity (set_propagate_time (set_time s t) t) w) b) f in
     sX s' = sX s /\ sTheta s' = sTheta s /\ sP s' = sP s /\ sQc s' = sQc s /\ scmap s' = scmap s).
Proof. exact thm_plain. Qed.
Print Assumptions C85_plain_members.

(** Constructors: the given mean, biases and covariance (zero biases, identity covariance if not
    given), no landmark, no time, no noise. *)
Theorem C85_constructors : fresh_state (meye 5) (mO 6 1) (meye 15) RS_default /\
  (forall X T P, fresh_state X T P (RS_XTP X T P)) /\
  (forall X T, (6 <= 3 * nc X + nr T)%nat -> exists s, RS_XT X T = Ok s /\ fresh_state X T (meye (3 * nc X + nr T - 6)) s) /\
  (forall X, exists s, RS_X X = Ok s /\ fresh_state X (mO 6 1) (meye (3 * nc X)) s) /\
  (forall K, nc (kX K) = 5%nat -> exists s, RS_SEK3 K = Ok s /\ fresh_state (kX K) (mO 6 1) (meye 15) s).
Proof. exact thm_constructors. Qed.
Print Assumptions C85_constructors.

(** False of the constructor from an SEK3 object: SEK3 keeps (R, p, v), the state (R, v, p), and
    the matrix is copied, so position and velocity change places; ... *)
Theorem C85_sek3_constructor_refuted : forall A p v, exists K s, SEK3_Rpv A p v = Ok K /\ RS_SEK3 K = Ok s /\ get_rotation s = Ok A /\ get_velocity s = Ok p /\ get_position s = Ok v.
Proof. exact thm_sek3_swaps. Qed.
Print Assumptions C85_sek3_constructor_refuted.
(** ... and a landmark column of the SEK3 object gives the state three more biases. *)
Theorem C85_sek3_biases_refuted : forall K, nc (kX K) = 6%nat -> exists s, RS_SEK3 K = Ok s /\ dimTheta s = 9%nat.
Proof. exact thm_sek3_biases. Qed.
Print Assumptions C85_sek3_biases_refuted.

(** Covariance getters after any history of landmarks and updates: rotation, velocity and position
    as they should be; the bias getters only without landmarks, with landmarks they read another block. *)
Theorem C85_covariance_getters_partial : forall os, valid_history spec_init os -> exists h s, hist_run os = Ok (h, s) /\
  let m := spec_run os in
  get_rotation_covariance s = Ok (cov m Rot Rot) /\ get_velocity_covariance s = Ok (cov m Vel Vel) /\ get_position_covariance s = Ok (cov m Pos Pos) /\
  get_gyroscope_bias_covariance s = Ok (match ids m with [] => cov m Bg Bg | p :: _ => cov m (Lm p) (Lm p) end) /\
  get_accelerometer_bias_covariance s = Ok (match ids m with [] => cov m Ba Ba | [_] => cov m Bg Bg | _ :: p :: _ => cov m (Lm p) (Lm p) end).
Proof. exact thm_cov_getters. Qed.
Print Assumptions C85_covariance_getters_partial.
Theorem C85_bias_covariance_getter_refuted : exists os h s, valid_history spec_init os /\ hist_run os = Ok (h, s) /\
  get_gyroscope_bias_covariance s = Ok (cov (spec_run os) (Lm 0) (Lm 0)) /\ cov (spec_run os) (Lm 0) (Lm 0) <> cov (spec_run os) Bg Bg.
Proof. exact thm_bias_cov_refuted. Qed.
Print Assumptions C85_bias_covariance_getter_refuted.

(** add_aug_cov appends the block behind the biases; get_aug_cov of the new column reads another one. *)
Theorem C85_add_aug_cov_partial : forall s n c, nr (sP s) = n -> nc (sP s) = n -> exists s', add_aug_cov s c = Ok s' /\ nr (sP s') = (n + 3)%nat /\ nc (sP s') = (n + 3)%nat /\ getM3 (sP s') n n = c /\
  (forall r k, (r < n + 3)%nat -> (k < n + 3)%nat -> (r < n \/ k < n)%nat -> ent (sP s') r k = if (Nat.ltb r n && Nat.ltb k n)%bool then ent (sP s) r k else 0) /\ only_cov s s'.
Proof. exact thm_add_aug_cov. Qed.
Print Assumptions C85_add_aug_cov_partial.
Theorem C85_add_aug_cov_refuted : exists s', add_aug_cov RS_default (2 *ms mid) = Ok s' /\ get_aug_cov s' 5 = Ok mid /\ 2 *ms mid <> mid.
Proof. exact thm_add_aug_cov_refuted. Qed.
Print Assumptions C85_add_aug_cov_refuted.

(** SEK3 objects *)
Theorem C85_sek3_accessors : forall s, (3 <= nr (kX s))%nat -> (5 <= nc (kX s))%nat ->
  SEK3_get_R s = Ok (getM3 (kX s) 0 0) /\ SEK3_get_p s = Ok (getV3 (kX s) 0 3) /\ SEK3_get_v s = Ok (getV3 (kX s) 0 4) /\ SEK3_get_X s = kX s /\ SEK3_get_dim s = nr (kX s) /\
  (forall A, exists s', SEK3_set_R s A = Ok s' /\ overwritten 0 0 (ofM3 A) (kX s) (kX s') /\ kK s' = kK s) /\
  (forall p, exists s', SEK3_set_p s p = Ok s' /\ overwritten 0 3 (ofV3 p) (kX s) (kX s') /\ kK s' = kK s) /\
  (forall v, exists s', SEK3_set_v s v = Ok s' /\ overwritten 0 4 (ofV3 v) (kX s) (kX s') /\ kK s' = kK s) /\
  (forall X, kX (SEK3_set_X s X) = X /\ kK (SEK3_set_X s X) = kK s) /\ (forall k, kX (SEK3_set_K s k) = kX s /\ SEK3_get_K (SEK3_set_K s k) = k) /\
  (forall X, SEK3_get_X (SEK3_ofX X) = X).
Proof. exact thm_sek3_acc. Qed.
Print Assumptions C85_sek3_accessors.
Theorem C85_sek3_constructors : forall A, (forall p, exists s, SEK3_Rp A p = Ok s /\ kK s = 5%Z /\ pose5 A p vzero (kX s)) /\
  (forall p v, exists s, SEK3_Rpv A p v = Ok s /\ kK s = 5%Z /\ pose5 A p v (kX s)).
Proof. exact pose_put. Qed.
Print Assumptions C85_sek3_constructors.

(** the sizes asked for are those of every state (C06), e.g. the default one *)
Example C85_ex : (3 <= nr (sX RS_default))%nat /\ (5 <= nc (sX RS_default))%nat /\ (6 <= nr (sTheta RS_default))%nat /\ nc (sTheta RS_default) = 1%nat /\
  nr (sP RS_default) = 15%nat /\ nc (sP RS_default) = 15%nat /\ valid_history spec_init [SAdd vzero (meye 18) mid; SAdd vzero (meye 21) mid] /\ nc (kX (SEK3_ofX (meye 6))) = 6%nat.
Proof. repeat (split; [apply Nat.leb_le; reflexivity|]). repeat (split; [reflexivity|]). split; [|reflexivity]. cbn. repeat split; auto. Qed.
