(** Lemmas for C85. *)
From Coq Require Import Reals ZArith List Bool Arith Lia Lra.
From Verif Require Import Res Vec3 Mat LieGroup MatInv Psd Spec SpecState LieSO3 LieSEK SEK3 RobotState StateProofs StateHist StateMisc SpecAcc.
Import ListNotations.
Local Open Scope R_scope.

Lemma over_put i j B M : (i + nr B <= nr M)%nat -> (j + nc B <= nc M)%nat -> overwritten i j B M (put M i j B).
Proof.
  intros H1 H2. split; [reflexivity|]. split; [reflexivity|]. split; intros r c.
  - intros Hr Hc. rewrite ent_put_in by (auto; lia). f_equal; lia.
  - intros H. apply ent_put_out; auto.
Qed.
Lemma thm_mean_setters s : (3 <= nr (sX s))%nat -> (5 <= nc (sX s))%nat ->
  (forall A, exists s', set_rotation s A = Ok s' /\ overwritten 0 0 (ofM3 A) (sX s) (sX s') /\ only_mean s s') /\
  (forall v, exists s', set_velocity s v = Ok s' /\ overwritten 0 3 (ofV3 v) (sX s) (sX s') /\ only_mean s s') /\
  (forall p, exists s', set_position s p = Ok s' /\ overwritten 0 4 (ofV3 p) (sX s) (sX s') /\ only_mean s s') /\
  (forall i v, (i < nc (sX s))%nat -> exists s', set_aug_state s i v = Ok s' /\ overwritten 0 i (ofV3 v) (sX s) (sX s') /\ only_mean s s') /\
  get_rotation s = Ok (getM3 (sX s) 0 0) /\ get_velocity s = Ok (getV3 (sX s) 0 3) /\ get_position s = Ok (getV3 (sX s) 0 4) /\
  (forall i, (i < nc (sX s))%nat -> get_aug_state s i = Ok (getV3 (sX s) 0 i) /\ get_vector s i = Ok (getV3 (sX s) 0 i)).
Proof.
  intros H1 H2.
  assert (forall i B, (nr B = 3)%nat -> (i + nc B <= nc (sX s))%nat -> exists s', (let* X := cput (sX s) 0 i B in Ok (set_X s X)) = Ok s' /\ overwritten 0 i B (sX s) (sX s') /\ only_mean s s') as H.
  { intros i B HB Hi. rewrite cput_ok by lia. eexists. split; [reflexivity|]. split; [apply over_put; lia|]. split; [reflexivity|]. split; reflexivity. }
  split; [intros A; apply H; [reflexivity|change (nc (ofM3 A)) with 3%nat; lia]|].
  split; [intros v; apply H; [reflexivity|change (nc (ofV3 v)) with 1%nat; lia]|]. split; [intros v; apply H; [reflexivity|change (nc (ofV3 v)) with 1%nat; lia]|].
  split; [intros i v Hi; apply H; [reflexivity|change (nc (ofV3 v)) with 1%nat; lia]|].
  unfold get_rotation, get_velocity, get_position, get_aug_state, get_vector. rewrite cgetM3_ok by lia. rewrite !cgetV3_ok by lia. split; [reflexivity|]. split; [reflexivity|]. split; [reflexivity|].
  intros i Hi. rewrite cgetV3_ok by lia. auto.
Qed.
Lemma thm_bias_setters s : (6 <= nr (sTheta s))%nat -> nc (sTheta s) = 1%nat ->
  (forall b, exists s', set_gyroscope_bias s b = Ok s' /\ overwritten 0 0 (ofV3 b) (sTheta s) (sTheta s') /\ only_biases s s') /\
  (forall b, exists s', set_accelerometer_bias s b = Ok s' /\ overwritten 3 0 (ofV3 b) (sTheta s) (sTheta s') /\ only_biases s s') /\
  get_gyroscope_bias s = Ok (seg (sTheta s) 0) /\ get_accelerometer_bias s = Ok (seg (sTheta s) 3).
Proof.
  intros H1 H2.
  assert (forall i b, (i + 3 <= 6)%nat -> exists s', (let* T := cput (sTheta s) i 0 (ofV3 b) in Ok (set_theta s T)) = Ok s' /\ overwritten i 0 (ofV3 b) (sTheta s) (sTheta s') /\ only_biases s s') as H.
  { intros i b Hi. rewrite cput_ok by (change (nr (ofV3 b)) with 3%nat; change (nc (ofV3 b)) with 1%nat; lia). eexists. split; [reflexivity|]. split; [apply over_put; change (nr (ofV3 b)) with 3%nat; change (nc (ofV3 b)) with 1%nat; lia|]. split; [reflexivity|]. split; reflexivity. }
  split; [intros b; apply (H 0%nat); lia|]. split; [intros b; apply (H 3%nat); lia|].
  unfold get_gyroscope_bias, get_accelerometer_bias. rewrite !cgetV3_ok by lia. split; reflexivity.
Qed.
Lemma thm_cov_setters s n : nr (sP s) = n -> nc (sP s) = n -> (15 <= n)%nat -> forall c,
  (exists s', set_rotation_covariance s c = Ok s' /\ overwritten 0 0 (ofM3 c) (sP s) (sP s') /\ only_cov s s') /\
  (exists s', set_velocity_covariance s c = Ok s' /\ overwritten 3 3 (ofM3 c) (sP s) (sP s') /\ only_cov s s') /\
  (exists s', set_position_covariance s c = Ok s' /\ overwritten 6 6 (ofM3 c) (sP s) (sP s') /\ only_cov s s') /\
  (exists s', set_gyroscope_bias_covariance s c = Ok s' /\ overwritten 9 9 (ofM3 c) (sP s) (sP s') /\ only_cov s s') /\
  (exists s', set_accelerometer_bias_covariance s c = Ok s' /\ overwritten 12 12 (ofM3 c) (sP s) (sP s') /\ only_cov s s').
Proof.
  intros H1 H2 H3 c.
  assert (forall i, (i + 3 <= 15)%nat -> exists s', set_cov3 s i c = Ok s' /\ overwritten i i (ofM3 c) (sP s) (sP s') /\ only_cov s s') as H.
  { intros i Hi. unfold set_cov3. assert (nr (ofM3 c) = 3%nat /\ nc (ofM3 c) = 3%nat) as [C1 C2] by (split; reflexivity). rewrite cput_ok by lia. eexists. split; [reflexivity|]. split; [apply over_put; lia|]. split; [reflexivity|]. split; reflexivity. }
  split; [apply H; lia|]. split; [apply H; lia|]. split; [apply H; lia|]. split; apply H; lia.
Qed.
(** the plain members *)
Lemma thm_plain s : (forall t, get_time (set_time s t) = Ok t /\ get_propagate_time (set_time s t) = get_propagate_time s) /\
  (forall t, get_propagate_time (set_propagate_time s t) = Ok t /\ get_time (set_propagate_time s t) = get_time s) /\
  (forall w, get_body_angular_velocity (set_body_angular_velocity s w) = Ok w) /\
  (forall b, sen (set_enable_imu_bias_update s b) = b) /\ (forall f, sslip (set_slip_flag s f) = f) /\
  (forall t w b f, let s' := set_slip_flag (set_enable_imu_bias_update (set_body_angular_velocity (set_propagate_time (set_time s t) t) w) b) f in
     sX s' = sX s /\ sTheta s' = sTheta s /\ sP s' = sP s /\ sQc s' = sQc s /\ scmap s' = scmap s).
Proof. repeat (split; [intros; auto|]); intros; cbn; auto 6. Qed.
(** constructors *)
Lemma thm_constructors : fresh_state (meye 5) (mO 6 1) (meye 15) RS_default /\
  (forall X T P, fresh_state X T P (RS_XTP X T P)) /\
  (forall X T, (6 <= 3 * nc X + nr T)%nat -> exists s, RS_XT X T = Ok s /\ fresh_state X T (meye (3 * nc X + nr T - 6)) s) /\
  (forall X, exists s, RS_X X = Ok s /\ fresh_state X (mO 6 1) (meye (3 * nc X)) s) /\
  (forall K, nc (kX K) = 5%nat -> exists s, RS_SEK3 K = Ok s /\ fresh_state (kX K) (mO 6 1) (meye 15) s).
Proof.
  assert (forall X T P, fresh_state X T P (RS_XTP X T P)) as HP by (intros; unfold fresh_state; cbn; auto 12).
  assert (forall X T, (6 <= 3 * nc X + nr T)%nat -> exists s, RS_XT X T = Ok s /\ fresh_state X T (meye (3 * nc X + nr T - 6)) s) as HT.
  { intros X T H. unfold RS_XT. assert (idx (3 * Z.of_nat (nc X) + Z.of_nat (nr T) - 6) = Ok (3 * nc X + nr T - 6)%nat) as ->. { rewrite idx_ok by lia. f_equal. lia. } cbn [bind]. eexists. split; [reflexivity|apply HP]. }
  split; [unfold fresh_state; cbn; auto 12|]. split; [exact HP|]. split; [exact HT|]. split.
  - intros X. unfold RS_X. destruct (HT X (mO 6 1)) as (s & E & F); [change (nr (mO 6 1)) with 6%nat; lia|]. exists s. split; [exact E|]. change (nr (mO 6 1)) with 6%nat in F; replace (3 * nc X + 6 - 6)%nat with (3 * nc X)%nat in F by lia. exact F.
  - intros K HK. unfold RS_SEK3, SEK3_get_X. rewrite HK. change (idx (3 * (Z.of_nat 5 - 3))) with (Ok 6%nat). cbn [bind]. destruct (HT (kX K) (mO 6 1)) as (s & E & F); [change (nr (mO 6 1)) with 6%nat; lia|]. exists s. split; [exact E|]. rewrite HK in F. exact F.
Qed.
(** SEK3 objects *)
Lemma pose_put A : (forall p, exists s, SEK3_Rp A p = Ok s /\ kK s = 5%Z /\ pose5 A p vzero (kX s)) /\ (forall p v, exists s, SEK3_Rpv A p v = Ok s /\ kK s = 5%Z /\ pose5 A p v (kX s)).
Proof.
  assert (forall X B i j, nr X = 5%nat -> nc X = 5%nat -> (i + nr B <= 5)%nat -> (j + nc B <= 5)%nat -> cput X i j B = Ok (put X i j B)) as HP by (intros; apply cput_ok; lia).
  assert (forall p, nr (ofV3 p) = 3%nat /\ nc (ofV3 p) = 1%nat) as HV by (intros; split; reflexivity). assert (nr (ofM3 A) = 3%nat /\ nc (ofM3 A) = 3%nat) as HM by (split; reflexivity).
  split; intros p; [|intros v]; unfold SEK3_Rp, SEK3_Rpv.
  - rewrite HP by (first [reflexivity | apply Nat.leb_le; reflexivity]). cbn [bind]. rewrite HP by (first [reflexivity | apply Nat.leb_le; reflexivity]). cbn [bind]. eexists. split; [reflexivity|]. split; [reflexivity|]. cbn [kX].
    split; [reflexivity|]. split; [reflexivity|].
    assert (forall r c, (r < 5)%nat -> (c < 5)%nat -> ent (put (put (meye 5) 0 0 (ofM3 A)) 0 3 (ofV3 p)) r c =
      if (r <? 3)%nat then (if (c <? 3)%nat then mget A r c else if Nat.eqb c 3 then vget p r else 0) else if Nat.eqb r c then 1 else 0) as HE.
    { intros r c Hr Hc. destruct r as [|[|[|[|[|r]]]]]; [| | | | |lia]; (destruct c as [|[|[|[|[|c]]]]]; [| | | | |lia]); reflexivity. }
    split; [destruct A; reflexivity|]. split; [destruct p; reflexivity|]. split; [reflexivity|]. intros r c [Hr1 Hr2] Hc. rewrite HE by lia. destruct (Nat.ltb_spec r 3); [lia|reflexivity].
  - rewrite HP by (first [reflexivity | apply Nat.leb_le; reflexivity]). cbn [bind]. rewrite HP by (first [reflexivity | apply Nat.leb_le; reflexivity]). cbn [bind]. rewrite HP by (first [reflexivity | apply Nat.leb_le; reflexivity]). cbn [bind]. eexists. split; [reflexivity|]. split; [reflexivity|]. cbn [kX].
    split; [reflexivity|]. split; [reflexivity|].
    split; [destruct A; reflexivity|]. split; [destruct p; reflexivity|]. split; [destruct v; reflexivity|].
    intros r c [Hr1 Hr2] Hc. destruct r as [|[|[|[|[|r]]]]]; [lia|lia|lia| | |lia]; (destruct c as [|[|[|[|[|c]]]]]; [| | | | |lia]); reflexivity.
Qed.
Lemma thm_sek3_acc : forall s, (3 <= nr (kX s))%nat -> (5 <= nc (kX s))%nat ->
  SEK3_get_R s = Ok (getM3 (kX s) 0 0) /\ SEK3_get_p s = Ok (getV3 (kX s) 0 3) /\ SEK3_get_v s = Ok (getV3 (kX s) 0 4) /\ SEK3_get_X s = kX s /\ SEK3_get_dim s = nr (kX s) /\
  (forall A, exists s', SEK3_set_R s A = Ok s' /\ overwritten 0 0 (ofM3 A) (kX s) (kX s') /\ kK s' = kK s) /\
  (forall p, exists s', SEK3_set_p s p = Ok s' /\ overwritten 0 3 (ofV3 p) (kX s) (kX s') /\ kK s' = kK s) /\
  (forall v, exists s', SEK3_set_v s v = Ok s' /\ overwritten 0 4 (ofV3 v) (kX s) (kX s') /\ kK s' = kK s) /\
  (forall X, kX (SEK3_set_X s X) = X /\ kK (SEK3_set_X s X) = kK s) /\ (forall k, kX (SEK3_set_K s k) = kX s /\ SEK3_get_K (SEK3_set_K s k) = k) /\
  (forall X, SEK3_get_X (SEK3_ofX X) = X).
Proof.
  intros s H1 H2. unfold SEK3_get_R, SEK3_get_p, SEK3_get_v. rewrite cgetM3_ok by lia. rewrite !cgetV3_ok by lia. do 5 (split; [reflexivity|]).
  assert (forall i B, nr B = 3%nat -> (i + nc B <= 5)%nat -> exists s', (let* X := cput (kX s) 0 i B in Ok (mkSEK3 X (kK s))) = Ok s' /\ overwritten 0 i B (kX s) (kX s') /\ kK s' = kK s) as H.
  { intros i B HB Hi. rewrite cput_ok by lia. eexists. split; [reflexivity|]. split; [apply over_put; lia|reflexivity]. }
  split; [intros; apply H; [reflexivity|apply Nat.leb_le; reflexivity]|]. split; [intros; apply H; [reflexivity|apply Nat.leb_le; reflexivity]|]. split; [intros; apply H; [reflexivity|apply Nat.leb_le; reflexivity]|]. auto.
Qed.
(** a state built from an SEK3 (R, p, v) takes p for its velocity and v for its position *)
Lemma thm_sek3_swaps : forall A p v, exists K s, SEK3_Rpv A p v = Ok K /\ RS_SEK3 K = Ok s /\ get_rotation s = Ok A /\ get_velocity s = Ok p /\ get_position s = Ok v.
Proof.
  intros A p v. destruct (pose_put A) as [_ H]. destruct (H p v) as (K & E & _ & (P1 & P2 & P3 & P4 & P5 & _)). destruct thm_constructors as (_ & _ & _ & _ & HC). destruct (HC K P2) as (s & Es & (F & _)).
  exists K, s. split; [exact E|]. split; [exact Es|]. unfold get_rotation, get_velocity, get_position. rewrite F, cgetM3_ok, !cgetV3_ok by lia. rewrite P3, P4, P5. auto.
Qed.
(** ... and from a matrix with landmark columns one bias entry per column *)
Lemma thm_sek3_biases : forall K, nc (kX K) = 6%nat -> exists s, RS_SEK3 K = Ok s /\ dimTheta s = 9%nat.
Proof.
  intros K HK. unfold RS_SEK3, SEK3_get_X. rewrite HK. change (idx (3 * (Z.of_nat 6 - 3))) with (Ok 9%nat). cbn [bind]. unfold RS_XT. rewrite HK. change (idx (3 * Z.of_nat 6 + Z.of_nat (nr (mO 9 1)) - 6)) with (Ok 21%nat). cbn [bind]. eexists. split; reflexivity.
Qed.
(** covariance getters after any history *)
Lemma thm_cov_getters os : valid_history spec_init os -> exists h s, hist_run os = Ok (h, s) /\
  let m := spec_run os in
  get_rotation_covariance s = Ok (cov m Rot Rot) /\ get_velocity_covariance s = Ok (cov m Vel Vel) /\ get_position_covariance s = Ok (cov m Pos Pos) /\
  get_gyroscope_bias_covariance s = Ok (match ids m with [] => cov m Bg Bg | p :: _ => cov m (Lm p) (Lm p) end) /\
  get_accelerometer_bias_covariance s = Ok (match ids m with [] => cov m Ba Ba | [_] => cov m Bg Bg | _ :: p :: _ => cov m (Lm p) (Lm p) end).
Proof.
  intros Hv. pose proof (hist_run_refines os Hv) as (h & s & E & [[H1 H2 H0 H3 H4 H5 H6 H7 [ND H8]] _ _ _ HC0]).
  destruct (thm_ids os Hv) as (h' & s' & E' & _ & _ & HC). rewrite E' in E. injection E as -> ->. exists h, s. split; [exact E'|]. cbn zeta in *. set (m := spec_run os) in *.
  assert (forall a, live (ids m) a -> cgetM3 (sP s) (3 * block_of (ids m) a) (3 * block_of (ids m) a) = Ok (cov m a a)) as HA by (intros; apply HC; auto).
  split; [exact (HA Rot I)|]. split; [exact (HA Vel I)|]. split; [exact (HA Pos I)|].
  unfold get_gyroscope_bias_covariance, get_accelerometer_bias_covariance. destruct (ids m) as [|p [|q l]] eqn:El.
  - split; [exact (HA Bg I)|exact (HA Ba I)].
  - split; [|exact (HA Bg I)]. pose proof (HA (Lm p) (or_introl eq_refl)) as X. cbn [block_of age] in X. rewrite Nat.eqb_refl in X. exact X.
  - pose proof (HA (Lm p) (or_introl eq_refl)) as X. cbn [block_of age] in X. rewrite Nat.eqb_refl in X. split; [exact X|].
    pose proof (HA (Lm q) (or_intror (or_introl eq_refl))) as Y. cbn [block_of age] in Y. destruct (Nat.eqb_spec q p) as [->|]; [inversion ND; subst; exfalso; cbn in *; tauto|]. rewrite Nat.eqb_refl in Y. exact Y.
Qed.
(** add_aug_cov *)
Lemma thm_add_aug_cov s n c : nr (sP s) = n -> nc (sP s) = n -> exists s', add_aug_cov s c = Ok s' /\ nr (sP s') = (n + 3)%nat /\ nc (sP s') = (n + 3)%nat /\ getM3 (sP s') n n = c /\
  (forall r k, (r < n + 3)%nat -> (k < n + 3)%nat -> (r < n \/ k < n)%nat -> ent (sP s') r k = if (Nat.ltb r n && Nat.ltb k n)%bool then ent (sP s) r k else 0) /\ only_cov s s'.
Proof.
  intros H1 H2. unfold add_aug_cov, dimP. rewrite H2. set (B := resize_like _ _). assert (nr B = (n + 3)%nat) as B1 by reflexivity. assert (nc B = (n + 3)%nat) as B2 by reflexivity.
  rewrite cput_ok by (change (nr (ofM3 c)) with 3%nat; change (nc (ofM3 c)) with 3%nat; lia). cbn [bind]. eexists. split; [reflexivity|]. cbn [set_P sP]. split; [exact B1|]. split; [exact B2|]. split.
  { rewrite getM3_put by (change (nr (ofM3 c)) with 3%nat; change (nc (ofM3 c)) with 3%nat; lia). rewrite !Nat.eqb_refl. destruct c; reflexivity. }
  split; [|split; [reflexivity|split; reflexivity]]. intros r k Hr Hk Ho. rewrite ent_put_out by (change (nr (ofM3 c)) with 3%nat; change (nc (ofM3 c)) with 3%nat; lia). unfold B, resize_like. change (nr (mO (n + 3) (n + 3))) with (n + 3)%nat; change (nc (mO (n + 3) (n + 3))) with (n + 3)%nat; rewrite ent_mk by lia. rewrite H1, H2.
  destruct (_ && _)%bool; [reflexivity|]. apply ent_mk; lia.
Qed.
Lemma thm_add_aug_cov_refuted : exists s', add_aug_cov RS_default (2 *ms mid) = Ok s' /\ get_aug_cov s' 5 = Ok mid /\ 2 *ms mid <> mid.
Proof.
  destruct (thm_add_aug_cov RS_default 15 (2 *ms mid) eq_refl eq_refl) as (s' & E & P1 & P2 & P3 & P4 & _). exists s'. split; [exact E|]. split.
  - unfold get_aug_cov. change (cov_index 5) with (Ok 9%nat). cbn [bind]. rewrite cgetM3_ok by lia. f_equal. unfold getM3, mmk. 
    rewrite !P4 by lia. reflexivity.
  - intros H. apply (f_equal (fun M => mget M 0 0)) in H. cbn in H. lra.
Qed.
(** a landmark added to a fresh state: the bias getter reads the landmark's covariance *)
Lemma thm_bias_cov_refuted : exists os h s, valid_history spec_init os /\ hist_run os = Ok (h, s) /\
  get_gyroscope_bias_covariance s = Ok (cov (spec_run os) (Lm 0) (Lm 0)) /\ cov (spec_run os) (Lm 0) (Lm 0) <> cov (spec_run os) Bg Bg.
Proof.
  set (P := mk 18 18 (fun i j => if Nat.eqb i j then INR i else 0)). set (os := [SAdd vzero P mid]).
  assert (valid_history spec_init os) as Hv by (split; [split; reflexivity|exact I]).
  destruct (thm_cov_getters os Hv) as (h & s & E & _ & _ & _ & G & _). exists os, h, s. split; [exact Hv|]. split; [exact E|]. split; [exact G|].
  change (cov (spec_run os) (Lm 0) (Lm 0)) with (getM3 P 9 9). change (cov (spec_run os) Bg Bg) with (getM3 P 12 12).
  intros H. apply (f_equal (fun M => mget M 0 0)) in H. cbv -[INR] in H. change (INR 9 = INR 12) in H. apply INR_eq in H. discriminate.
Qed.
