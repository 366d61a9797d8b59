(** C17 (limits), C36, C42, C43. *)
From Coq Require Import Reals ZArith List Bool Lia Lra.
From Verif Require Import Res Vec3 Mat LieGroup MatInv Psd Spec LieSO3 LieSEK RobotState StateProofs Inekf SpecFilter
  InekfProofs Imu Propagation SpecProp Blk PropagationProofs PropagationThms.
Import ListNotations.
Local Open Scope R_scope.

(** ** C36 *)
Lemma thm_quat_accept m w x y z :
  (Rabs (qnorm2 (mkQ w x y z) - 1) < 1 / 100000 ->
     set_quaternion m w x y z = (mkImu (i_t m) (mkQ w x y z) (i_w m) (i_a m), None)) /\
  (1 / 100000 <= Rabs (qnorm2 (mkQ w x y z) - 1) -> set_quaternion m w x y z = (m, Some Throw)).
Proof.
  unfold set_quaternion, validate_quat, qnorm2. cbn [qw qx qy qz].
  replace (w ^ 2 + x ^ 2 + y ^ 2 + z ^ 2) with (w * w + x * x + y * y + z * z) by ring.
  destruct (Rle_dec (1 / 100000) (Rabs (w * w + x * x + y * y + z * z - 1))); split; intros; auto; lra.
Qed.
Lemma quat_gram q : mtr (toRotationMatrix q) *m toRotationMatrix q =
  mid +m (4 * (1 - qnorm2 q)) *ms (skew (mkV (qx q) (qy q) (qz q)) *m skew (mkV (qx q) (qy q) (qz q))).
Proof. destruct q as [w x y z]. unfold toRotationMatrix, qnorm2, skew. cbn [qw qx qy qz]. ring3. Qed.
Lemma quat_det q : det3 (toRotationMatrix q) = 1 - 4 * (qx q ^ 2 + qy q ^ 2 + qz q ^ 2) * (1 - qnorm2 q).
Proof. destruct q as [w x y z]. unfold toRotationMatrix, qnorm2, det3. cbn [qw qx qy qz]. u3. ring. Qed.
Lemma thm_quat_unit q : qnorm2 q = 1 -> SO3 (toRotationMatrix q).
Proof.
  intros H. split.
  - rewrite quat_gram, H. replace (4 * (1 - 1)) with 0 by ring. ring3.
  - rewrite quat_det, H. ring.
Qed.
Lemma thm_quat_near q : Rabs (qnorm2 q - 1) < 1 / 100000 ->
  (forall i j, (i < 3)%nat -> (j < 3)%nat ->
    Rabs (mget (mtr (toRotationMatrix q) *m toRotationMatrix q) i j - mget mid i j) <= 5 / 100000) /\
  Rabs (det3 (toRotationMatrix q) - 1) <= 5 / 100000.
Proof.
  intros H. set (e := 1 - qnorm2 q). assert (Rabs e < 1 / 100000) as He by (unfold e; rewrite Rabs_minus_sym; exact H).
  assert (qx q ^ 2 + qy q ^ 2 + qz q ^ 2 <= 1 + 1 / 100000) as Hr.
  { unfold qnorm2 in H. apply Rabs_def2 in H. pose proof (pow2_ge_0 (qw q)). lra. }
  assert (forall s, Rabs s <= 1 + 1 / 100000 -> Rabs (4 * e * s) <= 5 / 100000) as Hs.
  { intros s Hs. rewrite !Rabs_mult. rewrite (Rabs_pos_eq 4) by lra. pose proof (Rabs_pos s). pose proof (Rabs_pos e). nra. }
  split.
  - intros i j Hi Hj. rewrite quat_gram, mget_add, mget_scal. fold e.
    match goal with |- Rabs (?a + ?b * ?s - ?a) <= _ => replace (a + b * s - a) with (b * s) by ring; apply Hs end.
    destruct q as [w x y z]. cbn [qx qy qz] in *.
    apply Rabs_le.
    assert (- (1 + 1/100000) <= x * y <= 1 + 1/100000) by (split; nra).
    assert (- (1 + 1/100000) <= x * z <= 1 + 1/100000) by (split; nra).
    assert (- (1 + 1/100000) <= y * z <= 1 + 1/100000) by (split; nra).
    destruct i as [|[|[|i]]]; try lia; destruct j as [|[|[|j]]]; try lia; unfold skew; u3; cbn [mget m00 m01 m02 m10 m11 m12 m20 m21 m22]; nra.
  - rewrite quat_det. fold e.
    replace (1 - 4 * (qx q ^ 2 + qy q ^ 2 + qz q ^ 2) * e - 1) with (- (4 * e * (qx q ^ 2 + qy q ^ 2 + qz q ^ 2))) by ring.
    rewrite Rabs_Ropp. apply Hs. rewrite Rabs_pos_eq; auto.
    pose proof (pow2_ge_0 (qx q)). pose proof (pow2_ge_0 (qy q)). pose proof (pow2_ge_0 (qz q)). lra.
Qed.
Lemma thm_quat_history ops : Rabs (qnorm2 (i_q (fold_left imu_do ops imu_default)) - 1) < 1 / 100000.
Proof.
  assert (forall m, Rabs (qnorm2 (i_q m) - 1) < 1 / 100000 -> Rabs (qnorm2 (i_q (fold_left imu_do ops m)) - 1) < 1 / 100000) as G.
  { induction ops as [|o ops IH]; intros m H; [exact H|]. cbn [fold_left]. apply IH. destruct o; cbn [imu_do]; try exact H.
    destruct (thm_quat_accept m w x y z) as [A B].
    destruct (Rlt_dec (Rabs (qnorm2 (mkQ w x y z) - 1)) (1 / 100000)) as [L|L].
    - rewrite A by auto. exact L.
    - rewrite B by lra. exact H. }
  apply G. unfold qnorm2. cbn. replace (_ - 1) with 0 by ring. rewrite Rabs_R0. lra.
Qed.

(** ** C42 *)
Lemma fold_sum_gen {A} (f : A -> V3) l : forall v c, (c < 3)%nat ->
  vget (fold_left (fun a u => a +v f u) l v) c = vget v c + fold_right Rplus 0 (map (fun u => vget (f u) c) l).
Proof.
  induction l as [|u l IH]; intros v c Hc; cbn [fold_left map fold_right]; [ring|].
  rewrite IH, vget_add by auto. ring.
Qed.
Lemma mean_fold (f : V3 * V3 -> V3) l : l <> [] ->
  is_mean ((1 / INR (length l)) *s fold_left (fun a v => a +v f v) l vzero) (map f l).
Proof.
  intros Hl. split; [destruct l; [congruence|discriminate]|]. intros c Hc.
  assert (vget ((1 / INR (length l)) *s fold_left (fun a v => a +v f v) l vzero) c
    = 1 / INR (length l) * vget (fold_left (fun a v => a +v f v) l vzero) c) as -> by (destruct c as [|[|[|c]]]; simpl; ring).
  rewrite fold_sum_gen by auto. rewrite map_map, map_length.
  assert (INR (length l) <> 0) as Hn by (apply not_0_INR; destruct l; [congruence|discriminate]).
  replace (vget vzero c) with 0 by (destruct c as [|[|[|c]]]; reflexivity). field; auto.
Qed.

(** the sample stored by the code is the value the specification names *)
Lemma calib_gyro ip m : fst (calib_sample ip m) = rest_gyro ip m. Proof. reflexivity. Qed.
Lemma calib_accel ip m : SO3 (rest_orientation ip m) -> snd (calib_sample ip m) = rest_accel ip (rest_orientation ip m) m.
Proof.
  intros H. unfold calib_sample, rest_accel, rest_orientation in *. cbn [snd]. unfold rest_gyro. change gravity with g_.
  set (B := if ip_use_ori ip then _ else _) in *. rewrite mv_add_r, SO3_l by auto. reflexivity.
Qed.

Lemma calib_cfg ip ip' m : ip_Rib ip' = ip_Rib ip -> ip_t ip' = ip_t ip -> ip_use_ori ip' = ip_use_ori ip ->
  calib_sample ip' m = calib_sample ip m.
Proof. intros E1 E2 E3. unfold calib_sample. rewrite E1, E2, E3. reflexivity. Qed.

(** everything except the queue, the window, the biases and the last sample *)
Definition calib_same (p p' : imu_prop) : Prop :=
  ip_err p' = ip_err p /\ ip_static p' = ip_static p /\ ip_init_size p' = ip_init_size p /\
  ip_use_ori p' = ip_use_ori p /\ ip_Rib p' = ip_Rib p /\ ip_gyro_cov p' = ip_gyro_cov p /\
  ip_accel_cov p' = ip_accel_cov p /\ ip_gyro_bias_cov p' = ip_gyro_bias_cov p /\
  ip_accel_bias_cov p' = ip_accel_bias_cov p /\ ip_enable p' = ip_enable p /\ ip_t p' = ip_t p.
Lemma calib_same_refl p : calib_same p p. Proof. repeat split. Qed.

Lemma size_lt_pos n k : (0 <= k)%Z -> size_lt n k = (Z.of_nat n <? k)%Z.
Proof. intros H. unfold size_lt. destruct (Z.ltb_spec k 0); [lia|reflexivity]. Qed.

Definition cal_inv (ip0 ip : imu_prop) (seen : list imu) : Prop :=
  calib_same ip0 ip /\
  exists used, seen = used ++ ip_queue ip /\ ip_vec ip = map (calib_sample ip0) used /\
    (Z.of_nat (length used) <= ip_init_size ip0)%Z /\
    (used <> [] -> ip_prev ip = Some (last used imu_default)) /\ (used = [] -> ip_prev ip = ip_prev ip0) /\
    (ip_bias_init ip = false -> ip_bg0 ip = ip_bg0 ip0 /\ ip_ba0 ip = ip_ba0 ip0) /\
    (ip_bias_init ip = true -> Z.of_nat (length used) = ip_init_size ip0 /\
       is_mean (ip_bg0 ip) (map fst (ip_vec ip)) /\ is_mean (ip_ba0 ip) (map snd (ip_vec ip))).

Lemma cal_run bs : forall ip0 ip seen, ip_static ip0 = true -> (0 < ip_init_size ip0)%Z -> cal_inv ip0 ip seen ->
  exists ip', calibrate ip bs = Ok ip' /\ cal_inv ip0 ip' (seen ++ concat bs).
Proof.
  induction bs as [|b bs IH]; intros ip0 ip seen Hs Hn Hi.
  - exists ip. split; [reflexivity|]. cbn [concat]. rewrite app_nil_r. exact Hi.
  - cbn [calibrate concat]. rewrite app_assoc.
    set (ip1 := set_queue ip (ip_queue ip ++ b)).
    assert (cal_inv ip0 ip1 (seen ++ b)) as Hi1.
    { destruct Hi as (C & used & U1 & U2 & U3). split; [exact C|]. exists used. cbn [ip1 set_queue ip_queue ip_vec ip_prev ip_bias_init ip_bg0 ip_ba0].
      split; [rewrite U1, app_assoc; reflexivity|]. auto. }
    clearbody ip1. clear Hi ip. destruct (ip_bias_init ip1) eqn:Eb.
    { cbn [bind]. apply IH; auto. }
    assert (exists ip2, InitImuBias ip1 = Ok ip2 /\ cal_inv ip0 ip2 (seen ++ b)) as (ip2 & E2 & I2).
    2:{ rewrite E2. cbn [bind]. apply IH; auto. }
    destruct Hi1 as (C & used & U1 & U2 & U3 & U4 & U5 & U6 & U7).
    destruct C as (C1 & C2 & C3 & C4 & C5 & C6 & C7 & C8 & C9 & C10 & C11).
    unfold InitImuBias. rewrite C2, Hs. cbn [negb]. rewrite C3, size_lt_pos by lia. rewrite U2, map_length.
    destruct (Z.ltb_spec (Z.of_nat (length used)) (ip_init_size ip0)) as [L|L].
    + destruct (ip_queue ip1) as [|m q] eqn:Eq.
      * exists ip1. split; [reflexivity|]. split; [repeat split; auto|]. exists used. rewrite Eq.
        split; [exact U1|]. split; [exact U2|]. split; [exact U3|]. split; [exact U4|]. split; [exact U5|]. split; [exact U6|exact U7].
      * eexists. split; [reflexivity|]. split; [repeat split; auto|]. exists (used ++ [m]).
        cbn [ip_queue set_prev set_vec set_queue ip_vec ip_prev ip_bias_init ip_bg0 ip_ba0].
        split; [rewrite U1, <- app_assoc; reflexivity|].
        split; [rewrite map_app; cbn [map]; rewrite (calib_cfg ip0 ip1) by auto; reflexivity|].
        split; [rewrite app_length; cbn; lia|].
        split; [intros _; rewrite last_last; reflexivity|].
        split; [intros X; destruct used; discriminate|].
        split; [intros _; auto|]. intros X; rewrite X in Eb; discriminate.
    + assert (length used <> 0)%nat as Hne by lia. destruct (Nat.eqb_spec (length used) 0) as [|_]; [lia|]. cbn [negb check bind].
      eexists. split; [reflexivity|]. split; [repeat split; auto|]. exists used.
      cbn [ip_queue set_bias ip_vec ip_prev ip_bias_init ip_bg0 ip_ba0].
      split; [exact U1|]. split; [exact U2|]. split; [exact U3|]. split; [exact U4|]. split; [exact U5|].
      split; [discriminate|]. intros _. split; [lia|]. rewrite U2.
      assert (map (calib_sample ip0) used <> []) as Hm by (destruct used; [cbn in Hne; lia|discriminate]).
      split; rewrite <- (map_length (calib_sample ip0) used); apply mean_fold; exact Hm.
Qed.

Lemma thm_calibration ip bs : ip_static ip = true -> (0 < ip_init_size ip)%Z -> ip_vec ip = [] -> ip_bias_init ip = false ->
  exists ip' used, calibrate ip bs = Ok ip' /\
    used ++ ip_queue ip' = ip_queue ip ++ concat bs /\
    (Z.of_nat (length used) <= ip_init_size ip)%Z /\
    (used <> [] -> ip_prev ip' = Some (last used imu_default)) /\
    (ip_bias_init ip' = false -> ip_bg0 ip' = ip_bg0 ip /\ ip_ba0 ip' = ip_ba0 ip) /\
    (ip_bias_init ip' = true -> Z.of_nat (length used) = ip_init_size ip /\
       is_mean (ip_bg0 ip') (map (rest_gyro ip) used) /\
       ((forall m, In m used -> SO3 (rest_orientation ip m)) ->
        is_mean (ip_ba0 ip') (map (fun m => rest_accel ip (rest_orientation ip m) m) used))) /\
    calib_same ip ip'.
Proof.
  intros Hs Hn Hv Hb.
  destruct (cal_run bs ip ip (ip_queue ip) Hs Hn) as (ip' & E & C & used & U1 & U2 & U3 & U4 & U5 & U6 & U7).
  { split; [apply calib_same_refl|]. exists []. split; [reflexivity|]. rewrite Hv. split; [reflexivity|]. split; [cbn; lia|].
    split; [congruence|]. split; [auto|]. split; [auto|]. rewrite Hb; discriminate. }
  exists ip', used. repeat (split; [auto; fail|]). split; [|exact C].
  intros B. destruct (U7 B) as (V1 & V2 & V3'). split; [exact V1|]. split.
  - rewrite U2, map_map in V2. exact V2.
  - intros HR. rewrite U2, map_map in V3'. erewrite map_ext_in; [exact V3'|]. intros m Hm. symmetry; apply calib_accel; auto.
Qed.
(** how it terminates: N samples and one more poll are enough *)
Lemma thm_no_calibration ip : ip_static ip = false ->
  InitImuBias ip = Ok (set_bias ip (ip_bg0 ip) (ip_ba0 ip)).
Proof. intros H. unfold InitImuBias. rewrite H. reflexivity. Qed.
Lemma thm_empty_window ip : ip_static ip = true -> ip_init_size ip = 0%Z -> ip_vec ip = [] -> InitImuBias ip = Fail DivZero.
Proof. intros H1 H2 H3. unfold InitImuBias. rewrite H1, H2, H3. reflexivity. Qed.
Lemma thm_negative_window ip : ip_static ip = true -> (- 1000000 <= ip_init_size ip < 0)%Z ->
  (Z.of_nat (length (ip_vec ip)) < 18446744073708551616)%Z -> 
  InitImuBias ip = match ip_queue ip with [] => Ok ip
    | m :: q => Ok (set_prev (set_vec (set_queue ip q) (ip_vec ip ++ [calib_sample ip m])) m) end.
Proof.
  intros H1 H2 H3. unfold InitImuBias. rewrite H1. cbn [negb]. unfold size_lt.
  destruct (Z.ltb_spec (ip_init_size ip) 0) as [L|L]; [|lia].
  destruct (Z.ltb_spec (Z.of_nat (length (ip_vec ip))) (ip_init_size ip + 18446744073709551616)) as [M|M]; [reflexivity|].
  exfalso. lia.
Qed.
