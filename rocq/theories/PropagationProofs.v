(** Closed forms of the IMU propagation. *)
From Coq Require Import Reals ZArith List Bool Lia Lra.
From Verif Require Import Res Vec3 Mat LieGroup MatInv Psd Spec LieSO3 LieSEK RobotState StateProofs Inekf SpecFilter
  InekfProofs Imu Propagation SpecProp Blk.
Import ListNotations.
Local Open Scope R_scope.

Lemma Gamma3 w : exists G, Gamma_SO3 w 3 = Ok G /\
  G = if Rlt_dec (vnorm w) TOLERANCE then (/ 6) *ms mid else Gam 3 w.
Proof.
  destruct (Rlt_dec (vnorm w) TOLERANCE).
  - rewrite Gamma_SO3_small by (auto; lia). eexists; split; [reflexivity|]. f_equal. simpl. f_equal. lra.
  - rewrite Gamma_SO3_ok by (lia || lra). eexists; split; reflexivity.
Qed.
Definition g3 (w : V3) : M3 := if Rlt_dec (vnorm w) TOLERANCE then (/ 6) *ms mid else Gam 3 w.
Lemma Gamma3_ok w : Gamma_SO3 w 3 = Ok (g3 w).
Proof. destruct (Gamma3 w) as (G & H & E). rewrite H, E. reflexivity. Qed.

(** blocks: 0 rotation, 1 velocity, 2 position, 3..K contacts, K+1, K+2 biases *)
Section Blocks.
Variables (K : nat) (en : bool) (a : V3) (dt : R).

Definition fL (G0 G1 G2 P25 P35 : M3) (i j : nat) : M3 :=
  let G0t := mtr G0 in let G1t := mtr G1 in
  if (j <=? K)%nat then
    if Nat.eqb i j then G0t
    else match i, j with
      | 1, 0 => dt *ms (mneg G0t *m skew (G1 *v a))
      | 2, 0 => (dt * dt) *ms (mneg G0t *m skew (G2 *v a))
      | 2, 1 => dt *ms G0t
      | _, _ => mzero
      end%nat
  else if en then
    if Nat.eqb i j then mid
    else if Nat.eqb j (K + 1) then
      match i with
      | 0 => dt *ms mneg G1t | 1 => P25 | 2 => P35 | _ => mzero end%nat
    else match i with
      | 1 => dt *ms mneg G1t | 2 => (dt * dt) *ms (mneg G0t *m G2) | _ => mzero end%nat
  else mzero.

Definition fR (X : mat) (G0 G1 G2 P25 P35 : M3) (i j : nat) : M3 :=
  let RG1dt := dt *ms (rot X *m G1) in
  let RG2dt2 := (dt * dt) *ms (rot X *m G2) in
  if (j <=? K)%nat then
    if Nat.eqb i j then mid
    else match i, j with
      | 1, 0 => dt *ms skew g_
      | 2, 0 => (1 / 2 * (dt * dt)) *ms skew g_
      | 2, 1 => dt *ms mid
      | _, _ => mzero
      end%nat
  else if en then
    if Nat.eqb i j then mid
    else if Nat.eqb j (K + 1) then
      match i with
      | 0 => mneg RG1dt
      | 1 => mneg (skew (col X 0 +v RG1dt *v a +v dt *s g_)) *m RG1dt +m rot X *m G0 *m P25
      | 2 => mneg (skew (col X 1 +v dt *s col X 0 +v RG2dt2 *v a +v (1 / 2 * (dt * dt)) *s g_)) *m RG1dt
             +m rot X *m G0 *m P35
      | S (S (S q)) => if (i <=? K)%nat then mneg (skew (col X (i - 1))) *m RG1dt else mzero
      end%nat
    else match i with
      | 1 => mneg RG1dt | 2 => mneg RG2dt2 | _ => mzero end%nat
  else mzero.
End Blocks.

Ltac caseb := repeat match goal with
  | |- context [Nat.eqb ?x ?y] => destruct (Nat.eqb_spec x y); try lia; cbn [andb]
  | |- context [(?x <=? ?y)%nat] => destruct (Nat.leb_spec x y); try lia
  end.

Lemma bias_zero_blk K f : cput (blk (3 + K) f) 0 (3 + 3 * K) (mO (9 + 3 * K) 6)
  = Ok (blk (3 + K) (fun i j => if (j <=? K)%nat then f i j else mzero)).
Proof.
  rewrite cput_ok by (mdim; lia). f_equal. apply blk_eq; mdim. intros i j Hi Hj.
  apply M3_ext; intros r c Hr Hc. rewrite mget_getM3 by auto. rewrite ent_put by (mdim; lia). mdim.
  unfold inwin.
  destruct (Nat.leb_spec j K).
  - destruct (Nat.leb_spec (3 + 3 * K) (3 * j + c)); [lia|]. rewrite andb_false_r. cbn [andb].
    rewrite <- (getM3_blk (3 + K) f i j), mget_getM3 by auto. reflexivity.
  - destruct (Nat.leb_spec (3 + 3 * K) (3 * j + c)), (Nat.ltb_spec (3 * j + c) (3 + 3 * K + 6)); try lia.
    destruct (Nat.leb_spec 0 (3 * i + r)), (Nat.ltb_spec (3 * i + r) (0 + (9 + 3 * K))); try lia. cbn [andb].
    rewrite ent_O, mget_zero. reflexivity.
Qed.

Ltac pstep i j := rewrite (putM_blk _ _ _ _ i j) by lia; cbn [bind].

Lemma Phi_left_ok K en a dt G0 G1 G2 P25 P35 : (2 <= K)%nat ->
  Phi_left (3 + K) (9 + 3 * K) 6 en a dt (mtr G0) G1 (mtr G1) G2 P25 P35
  = Ok (blk (3 + K) (fL K en a dt G0 G1 G2 P25 P35)).
Proof.
  intros HK. unfold Phi_left. replace (9 + 3 * K)%nat with (3 * (3 + K))%nat at 1 by lia.
  rewrite blk_eye.
  pstep 0%nat 0%nat. pstep 1%nat 0%nat. pstep 2%nat 0%nat. pstep 1%nat 1%nat. pstep 2%nat 1%nat. pstep 2%nat 2%nat.
  rewrite (foldM_blk (fun _ => mtr G0) (fun i => i - 2)%nat (fun i => i - 2)%nat).
  2:{ intros i Hi. apply in_seq in Hi. lia. }
  cbn [bind]. rewrite idx_sub by lia. cbn [bind]. replace (9 + 3 * K - 6)%nat with (3 + 3 * K)%nat by lia.
  assert (forall l f i j, l = seq 5 (3 + K - 5) ->
     fold_left (fun f i => bupd f (i - 2) (i - 2) (mtr G0)) l f i j =
     if (3 <=? i)%nat && (i <=? K)%nat && Nat.eqb i j then mtr G0 else f i j) as FL.
  { intros l f i j ->.
    destruct ((3 <=? i)%nat && (i <=? K)%nat && Nat.eqb i j) eqn:E.
    - apply andb_true_iff in E. destruct E as [E E3]. apply andb_true_iff in E. destruct E as [E1 E2].
      apply Nat.leb_le in E1, E2. apply Nat.eqb_eq in E3. subst j.
      rewrite (fold_bupd_some (fun _ => mtr G0) (fun i => i - 2)%nat (fun i => i - 2)%nat i i (mtr G0)); auto.
      left. exists (i + 2)%nat. rewrite in_seq. lia.
    - rewrite (fold_bupd_none (fun _ => mtr G0) (fun i => i - 2)%nat (fun i => i - 2)%nat); auto.
      intros q Hq [Q1 Q2]. apply in_seq in Hq.
      destruct (Nat.leb_spec 3 i), (Nat.leb_spec i K), (Nat.eqb_spec i j); cbn in E; try discriminate; lia. }
  destruct en.
  - pstep 0%nat (K + 1)%nat. pstep 1%nat (K + 1)%nat. pstep 2%nat (K + 1)%nat. pstep 1%nat (K + 2)%nat.
    rewrite (putM_blk _ _ _ _ 2 (K + 2)) by lia. f_equal. apply blk_ext. intros i j Hi Hj.
    unfold fL, bupd at 1 2 3 4 5. rewrite FL by auto. unfold bupd.
    destruct i as [|[|[|i]]]; caseb; cbn [andb]; try reflexivity;
      destruct j as [|[|[|j]]]; try lia; caseb; cbn [andb]; try reflexivity; try lia.
  - rewrite bias_zero_blk. f_equal. apply blk_ext. intros i j Hi Hj. unfold fL.
    destruct (Nat.leb_spec j K); [|reflexivity]. rewrite FL by auto. unfold bupd.
    destruct i as [|[|[|i]]]; caseb; cbn [andb]; try reflexivity;
      destruct j as [|[|[|j]]]; try lia; caseb; cbn [andb]; try reflexivity; try lia.
Qed.

Lemma Phi_right_ok K s en a dt G0 G1 G2 P25 P35 : (2 <= K)%nat -> wf K s ->
  Phi_right s en a dt G0 G1 G2 P25 P35 = Ok (blk (3 + K) (fR K en a dt (sX s) G0 G1 G2 P25 P35)).
Proof.
  intros HK W. destruct W as [WX WT1 WT2 WP1 WP2]. pose proof WX as [X1 X2 X3 X4].
  unfold Phi_right, dimX, dimP, dimTheta, get_rotation, get_velocity, get_position, get_vector.
  rewrite X2, WP2, WT1. repeat okstep.
  replace (9 + 3 * K)%nat with (3 * (3 + K))%nat at 1 by lia.
  rewrite blk_eye. pstep 1%nat 0%nat. pstep 2%nat 0%nat. pstep 2%nat 1%nat.
  rewrite idx_sub by lia. cbn [bind]. replace (9 + 3 * K - 6)%nat with (3 + 3 * K)%nat by lia.
  fold (rot (sX s)). change (getV3 (sX s) 0 3) with (col (sX s) 0). change (getV3 (sX s) 0 4) with (col (sX s) 1).
  destruct en.
  - pstep 0%nat (K + 1)%nat. pstep 1%nat (K + 1)%nat. pstep 2%nat (K + 1)%nat.
    set (g := fun i => mneg (skew (getV3 (sX s) 0 i)) *m (dt *ms (rot (sX s) *m G1))).
    match goal with |- context [foldM ?F ?B ?L] =>
      assert (foldM F B L = foldM (fun P i => putM P ((i - 2) * 3) ((K + 1) * 3) (g i)) B L) as -> end.
    { match goal with |- foldM _ ?B _ = _ => generalize B end.
      assert (forall i, In i (seq 5 (3 + K - 5)) -> (i + 1 <= nc (sX s))%nat) as HI by (intros i Hi; apply in_seq in Hi; lia).
      revert HI. generalize (seq 5 (3 + K - 5)) as l.
      induction l as [|i l IH]; intros HI B; [reflexivity|]. cbn [foldM].
      rewrite cgetV3_ok by (try (rewrite X1; lia); apply HI; left; reflexivity). cbn [bind].
      replace ((K + 1) * 3)%nat with (3 + 3 * K)%nat by lia. unfold g at 1.
      destruct (putM B ((i - 2) * 3) (3 + 3 * K) _); [|reflexivity]. cbn [bind].
      rewrite IH by (intros; apply HI; right; auto).
      replace ((K + 1) * 3)%nat with (3 + 3 * K)%nat by lia. reflexivity. }
    rewrite (foldM_blk g (fun i => i - 2)%nat (fun i => K + 1)%nat).
    2:{ intros i Hi. apply in_seq in Hi. lia. }
    cbn [bind].
    assert (forall f i j,
     fold_left (fun f i => bupd f (i - 2) (K + 1) (g i)) (seq 5 (3 + K - 5)) f i j =
     if (3 <=? i)%nat && (i <=? K)%nat && Nat.eqb j (K + 1) then g (i + 2)%nat else f i j) as FL.
    { intros f i j.
      destruct ((3 <=? i)%nat && (i <=? K)%nat && Nat.eqb j (K + 1)) eqn:E.
      - apply andb_true_iff in E. destruct E as [E E3]. apply andb_true_iff in E. destruct E as [E1 E2].
        apply Nat.leb_le in E1, E2. apply Nat.eqb_eq in E3. subst j.
        rewrite (fold_bupd_some g (fun i => i - 2)%nat (fun i => K + 1)%nat i (K + 1)%nat (g (i + 2)%nat)); auto.
        + left. exists (i + 2)%nat. rewrite in_seq. lia.
        + intros q Hq Q _. apply in_seq in Hq. f_equal. lia.
      - rewrite (fold_bupd_none g (fun i => i - 2)%nat (fun i => K + 1)%nat); auto.
        intros q Hq [Q1 Q2]. apply in_seq in Hq.
        destruct (Nat.leb_spec 3 i), (Nat.leb_spec i K), (Nat.eqb_spec j (K + 1)); cbn in E; try discriminate; lia. }
    pstep 1%nat (K + 2)%nat. rewrite (putM_blk _ _ _ _ 2 (K + 2)) by lia.
    f_equal. apply blk_ext. intros i j Hi Hj.
    unfold fR, bupd at 1 2. rewrite FL by auto. unfold bupd.
    destruct i as [|[|[|i]]]; caseb; cbn [andb]; try reflexivity;
      try (destruct j as [|[|[|j]]]; try lia; caseb; cbn [andb]; try reflexivity; try lia).
    unfold g, col. do 4 f_equal. lia.
  - rewrite bias_zero_blk. f_equal. apply blk_ext. intros i j Hi Hj. unfold fR.
    destruct (Nat.leb_spec j K); [|reflexivity]. unfold bupd.
    destruct i as [|[|[|i]]]; caseb; cbn [andb]; try reflexivity;
      destruct j as [|[|[|j]]]; try lia; caseb; cbn [andb]; try reflexivity; try lia.
Qed.

(** ** The whole step *)
Definition Phi_of (K : nat) (e : error_type) (en : bool) (X : mat) (w a : V3) (dt : R) : mat :=
  let phi := dt *s w in
  let G0 := expSO3 phi in let G1 := jl phi in let G2 := g2 phi in
  let P25 := Phi25L_of w a dt (mtr G0) (mtr G2) in
  let P35 := Phi35L_of w a dt (mtr G0) (g3 (vneg phi)) in
  match e with
  | LeftInvariant => blk (3 + K) (fL K en a dt G0 G1 G2 P25 P35)
  | RightInvariant => blk (3 + K) (fR K en a dt X G0 G1 G2 P25 P35)
  end.
Definition NG (K : nat) (e : error_type) (X : mat) : mat :=
  match e with LeftInvariant => meye (9 + 3 * K) | RightInvariant => AdB K X end.
Definition Qfull (K : nat) (ip : imu_prop) (Q : mat) : mat :=
  let Q := put (put Q 0 0 (ofM3 (ip_gyro_cov ip))) 3 3 (ofM3 (ip_accel_cov ip)) in
  if ip_enable ip then
    put (put Q (3 + 3 * K) (3 + 3 * K) (ofM3 (ip_gyro_bias_cov ip)))
        (6 + 3 * K) (6 + 3 * K) (ofM3 (ip_accel_bias_cov ip))
  else Q.
Definition stepX (K : nat) (X : mat) (w a : V3) (dt : R) : mat :=
  let phi := dt *s w in
  sek K (rot X *m expSO3 phi) (fun k =>
    match k with
    | O => col X 0 +v dt *s (rot X *m jl phi *v a +v g_)
    | 1%nat => col X 1 +v dt *s col X 0 +v (dt * dt) *s (rot X *m g2 phi *v a +v (1 / 2) *s g_)
    | _ => col X k end).
Definition prior_cov (K : nat) (ip : imu_prop) (s : rstate) (w a : V3) (dt : R) : mat :=
  let Phi := Phi_of K (ip_err ip) (ip_enable ip) (sX s) w a dt in
  let PG := Phi *M NG K (ip_err ip) (sX s) in
  Phi *M sP s *M mT Phi +M dt *S (PG *M Qfull K ip (sQc s) *M mT PG).
Definition next_cov (K : nat) (ip : imu_prop) (s : rstate) (w a : V3) (dt : R) : mat :=
  if ip_enable ip then prior_cov K ip s w a dt else mask_diag (biasm K) 1 (prior_cov K ip s w a dt).

Lemma nr_Phi K e en X w a dt : nr (Phi_of K e en X w a dt) = (9 + 3 * K)%nat.
Proof. destruct e; cbn [Phi_of]; mdim. Qed.
Lemma nc_Phi K e en X w a dt : nc (Phi_of K e en X w a dt) = (9 + 3 * K)%nat.
Proof. destruct e; cbn [Phi_of]; mdim. Qed.
Lemma nr_NG K e X : nr (NG K e X) = (9 + 3 * K)%nat. Proof. destruct e; reflexivity. Qed.
Lemma nc_NG K e X : nc (NG K e X) = (9 + 3 * K)%nat. Proof. destruct e; reflexivity. Qed.
Lemma nr_Qfull K ip Q : nr (Qfull K ip Q) = nr Q. Proof. unfold Qfull; destruct (ip_enable ip); reflexivity. Qed.
Lemma nc_Qfull K ip Q : nc (Qfull K ip Q) = nc Q. Proof. unfold Qfull; destruct (ip_enable ip); reflexivity. Qed.
Global Hint Rewrite nr_Phi nc_Phi nr_NG nc_NG nr_Qfull nc_Qfull : mdims.
Global Arguments Phi_of : simpl never.
Global Arguments NG : simpl never.
Global Arguments Qfull : simpl never.
Global Arguments stepX : simpl never.

Lemma STM_ok K ip w a dt s : wfp K s ->
  StateTransitionMatrix ip w a dt s = Ok (Phi_of K (ip_err ip) (ip_enable ip) (sX s) w a dt).
Proof.
  intros [W HK HT _ _]. unfold StateTransitionMatrix. rewrite Gamma0, Gamma1, Gamma2, Gamma3_ok. cbn [bind].
  rewrite HT. unfold Phi_of. destruct (ip_err ip); cbn [left_like].
  - unfold dimX, dimP, dimTheta. pose proof (sek_cols _ _ (wf_X _ _ W)) as ->. rewrite (wf_Pc _ _ W), (wf_Tr _ _ W).
    rewrite Phi_left_ok by auto. reflexivity.
  - rewrite (Phi_right_ok K) by auto. reflexivity.
Qed.

Lemma DNM_ok K ip Phi dt s : wfp K s -> nr Phi = (9 + 3 * K)%nat -> nc Phi = (9 + 3 * K)%nat ->
  DiscreteNoiseMatrix ip Phi dt s =
  Ok (dt *S (Phi *M NG K (ip_err ip) (sX s) *M Qfull K ip (sQc s) *M mT (Phi *M NG K (ip_err ip) (sX s)))).
Proof.
  intros [W HK HT HQ1 HQ2] H1 H2. unfold DiscreteNoiseMatrix, dimP, dimTheta.
  rewrite (wf_Pc _ _ W), (wf_Tr _ _ W), idx_sub by lia. cbn [bind].
  replace (9 + 3 * K - 6)%nat with (3 + 3 * K)%nat by lia. rewrite HT.
  assert (forall A (f : mat -> res A),
    bind (if left_like WorldCentric (ip_err ip) then Ok (meye (9 + 3 * K))
     else let* X := get_world_X s in
      let* A := Adjoint_SEK3 X in
      let* _ := check ((nr A =? 3 + 3 * K) && (nc A =? 3 + 3 * K))%nat EigenAssert in
      cput (meye (9 + 3 * K)) 0 0 A) f = f (NG K (ip_err ip) (sX s))) as ->.
  { intros A f. destruct (ip_err ip); cbn [left_like]; [reflexivity|].
    unfold get_world_X. rewrite HT. cbn [bind]. pose proof (wf_X _ _ W) as WX.
    rewrite (Adjoint_SEK3_ok K) by (destruct WX; lia). cbn [bind]. fold (Ad K (sX s)). mdim.
    rewrite !Nat.eqb_refl. cbn [andb check bind]. okstep. reflexivity. }
  unfold putM. okstep. okstep.
  assert (forall A (f : mat -> res A) Q0, nr Q0 = (9 + 3 * K)%nat -> nc Q0 = (9 + 3 * K)%nat ->
    bind (if ip_enable ip then let* Qc := cput Q0 (3 + 3 * K) (3 + 3 * K) (ofM3 (ip_gyro_bias_cov ip)) in
       cput Qc (3 + 3 * K + 3) (3 + 3 * K + 3) (ofM3 (ip_accel_bias_cov ip)) else Ok Q0) f
    = f (if ip_enable ip then put (put Q0 (3 + 3 * K) (3 + 3 * K) (ofM3 (ip_gyro_bias_cov ip)))
        (6 + 3 * K) (6 + 3 * K) (ofM3 (ip_accel_bias_cov ip)) else Q0)) as EQ.
  { intros A f Q0 Hq1 Hq2. destruct (ip_enable ip); [|reflexivity]. okstep. okstep.
    replace (3 + 3 * K + 3)%nat with (6 + 3 * K)%nat by lia. reflexivity. }
  rewrite EQ by mdim. clear EQ. fold (Qfull K ip (sQc s)).
  rewrite cmul_ok by mdim. cbn [bind]. rewrite cmul_ok by mdim. cbn [bind]. rewrite cmul_ok by mdim. reflexivity.
Qed.

Lemma decorrelate_ok K P : nr P = (9 + 3 * K)%nat -> nc P = (9 + 3 * K)%nat ->
  decorrelate_bias (9 + 3 * K) 6 P = Ok (mask_diag (biasm K) 1 P).
Proof.
  intros H1 H2. unfold decorrelate_bias. rewrite idx_sub by lia. cbn [bind].
  replace (9 + 3 * K - 6)%nat with (3 + 3 * K)%nat by lia.
  rewrite cput_ok by (mdim; lia). cbn [bind].
  rewrite cput_ok by (mdim; lia). cbn [bind].
  rewrite cput_ok by (mdim; lia). f_equal.
  apply mat_ext; mdim. intros i j Hi Hj. mdim. rewrite ent_mask by lia.
  rewrite !ent_put by (mdim; lia). mdim. unfold biasm.
  unfold inwin.
  repeat match goal with |- context [(?a <=? ?b)%nat] => destruct (Nat.leb_spec a b) end;
  repeat match goal with |- context [(?a <? ?b)%nat] => destruct (Nat.ltb_spec a b) end; cbn [andb orb]; try lia;
  rewrite ?ent_O; try reflexivity;
  try (destruct (Nat.eqb_spec i j); [lia|reflexivity]).
  rewrite ent_eye by lia.
  destruct (Nat.eqb_spec (i - (3 + 3 * K)) (j - (3 + 3 * K))), (Nat.eqb_spec i j); try lia; reflexivity.
Qed.

Lemma put_rot_sek K A B f : put (sek K A f) 0 0 (ofM3 B) = sek K B f.
Proof.
  apply mat_ext; try reflexivity. intros i j Hi Hj. mdim.
  destruct (le_lt_dec 3 i) as [L|L].
  - rewrite ent_put_out by (mdim; lia). rewrite !ent_aff_bot by lia. reflexivity.
  - destruct (le_lt_dec 3 j) as [M|M].
    + rewrite ent_put_out by (mdim; lia). replace j with (3 + (j - 3))%nat by lia.
      rewrite !ent_aff_col by lia. reflexivity.
    + rewrite ent_put_in by (mdim; lia). rewrite !Nat.sub_0_r, ent_ofM3, ent_aff_rot by auto. reflexivity.
Qed.

Lemma mean_ok K s w a dt : wfp K s -> propagate_mean s w a dt = Ok (stepX K (sX s) w a dt).
Proof.
  intros [W HK HT _ _]. pose proof (wf_X _ _ W) as WX. pose proof WX as [X1 X2 X3 X4].
  unfold propagate_mean, get_rotation, get_velocity, get_position. repeat okstep.
  rewrite Gamma0, Gamma1, Gamma2. cbn [bind]. rewrite HT. repeat okstep. f_equal.
  fold (rot (sX s)). change (getV3 (sX s) 0 3) with (col (sX s) 0). change (getV3 (sX s) 0 4) with (col (sX s) 1).
  rewrite (SEK_form K (sX s) WX) at 1. rewrite put_rot_sek.
  change 3%nat with (3 + 0)%nat at 1. rewrite put_col_sek by lia.
  change 4%nat with (3 + 1)%nat. rewrite put_col_sek by lia.
  unfold stepX. apply aff_ext. intros [|[|k]] Hk; reflexivity.
Qed.

Lemma stepX_SEK K X w a dt : SEK K X -> SEK K (stepX K X w a dt).
Proof. intros H. apply SEK_sek, SO3_mul; [apply (SEK_SO3 K X H)|apply expSO3_SO3]. Qed.


Lemma propagate_ok K ip m s t0 : wfp K s -> stprop s = Some t0 ->
  let w := fst (body_rates ip m (gbias s) (abias s)) in
  let a := snd (body_rates ip m (gbias s) (abias s)) in
  let dt := i_t m - t0 in
  propagate_with ip m s =
  Ok (mkRS (stype s) (stepX K (sX s) w a dt) (sTheta s) (next_cov K ip s w a dt) (scmap s)
        (Some (i_t m)) (Some (i_t m)) (sQc s) (sbav s) (sen s) (sslip s)).
Proof.
  intros Wp Ht w a dt. pose proof Wp as [W HK HT HQ1 HQ2]. pose proof W as [WX WT1 WT2 WP1 WP2].
  unfold propagate_with, get_propagate_time. rewrite Ht. cbn [of_opt bind].
  set (s1 := set_propagate_time (set_time s (i_t m)) (i_t m)).
  assert (wf K s1) as W1 by (destruct W; constructor; auto).
  assert (wfp K s1) as Wp1 by (constructor; auto).
  unfold get_gyroscope_bias, get_accelerometer_bias. rewrite !cgetV3_ok by (change (sTheta s1) with (sTheta s); lia). cbn [bind].
  change (getV3 (sTheta s1) 0 0) with (gbias s). change (getV3 (sTheta s1) 3 0) with (abias s).
  rewrite (surjective_pairing (body_rates ip m (gbias s) (abias s))). fold w a dt.
  rewrite (get_Xinv_ok K) by (change (sX s1) with (sX s); destruct WX; lia). cbn [bind].
  rewrite (STM_ok K) by auto. cbn [bind]. rewrite (DNM_ok K) by (auto; mdim). cbn [bind].
  change (sP s1) with (sP s). change (sX s1) with (sX s). change (sQc s1) with (sQc s).
  rewrite cmul_ok by mdim. cbn [bind]. rewrite cmul_ok by mdim. cbn [bind]. rewrite cadd_ok by mdim. cbn [bind].
  fold (prior_cov K ip s w a dt).
  assert (nr (prior_cov K ip s w a dt) = (9 + 3 * K)%nat /\ nc (prior_cov K ip s w a dt) = (9 + 3 * K)%nat) as [D1 D2].
  { split; unfold prior_cov; mdim. }
  assert (dimP s1 = (9 + 3 * K)%nat) as -> by exact WP2. assert (dimTheta s1 = 6%nat) as -> by exact WT1.
  rewrite (decorrelate_ok K) by auto.
  assert (forall A (f : mat -> res A), bind (if ip_enable ip then Ok (prior_cov K ip s w a dt) else Ok (mask_diag (biasm K) 1 (prior_cov K ip s w a dt))) f
     = f (next_cov K ip s w a dt)) as ->.
  { intros. unfold next_cov. destruct (ip_enable ip); reflexivity. }
  rewrite (mean_ok K) by auto. cbn [bind]. reflexivity.
Qed.

Lemma nr_next K ip s w a dt : nr (next_cov K ip s w a dt) = (9 + 3 * K)%nat.
Proof. unfold next_cov, prior_cov. destruct (ip_enable ip); mdim. Qed.
Lemma nc_next K ip s w a dt : wfp K s -> nc (next_cov K ip s w a dt) = (9 + 3 * K)%nat.
Proof. intros _. unfold next_cov, prior_cov. destruct (ip_enable ip); mdim. Qed.
