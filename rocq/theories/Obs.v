(** Proofs: C76, C77 — directions the filter cannot observe, and what a correction guarantees. *)
From Coq Require Import Reals ZArith List Bool Arith Lia Lra.
From Verif Require Import Res Vec3 Mat MatInv Psd Spec LieGroup LieSO3 LieSEK RobotState StateProofs Inekf SpecFilter InekfProofs InekfThms Blk Imu Propagation SpecProp
  PropagationProofs PropagationThms ImuRest ImuThms ImuNeg Queue VelCorr LegCorr SpecCorr VelThms PsdBlk LegThms LegAdd LegLoop LegUpd LegHist Estimator SpecEst EstInv EstSafe EstPub EstHist EstTime
  ConvLeg ConvFilter ConvEst SpecObs.
Import ListNotations.
Local Open Scope R_scope.

Lemma nr_move K w a : nr (world_move K w a) = (9 + 3 * K)%nat. Proof. reflexivity. Qed.
Lemma nc_move K w a : nc (world_move K w a) = 1%nat. Proof. reflexivity. Qed.
Global Hint Rewrite nr_move nc_move : mdims.
Global Arguments world_move : simpl never.

(** ** the floor under the operations of the filter *)
Lemma floor_conj A P N c : nc A = nr P -> nr P = nc P -> nr N = nr P -> nc N = 1%nat -> variance_floor P N c -> variance_floor (A *M P *M mT A) (A *M N) c.
Proof.
  intros H1 H2 H3 H4 F y Hy1 Hy2. mdim. rewrite quad_conj by mdim.
  replace (along (A *M N) y) with (along N (mT A *M y)); [apply F; mdim|].
  unfold along. rewrite mT_mult by mdim. rewrite mmult_assoc by mdim. reflexivity.
Qed.
Lemma floor_plus P Q N c : nr P = nr Q -> nc P = nc Q -> psd Q -> variance_floor P N c -> variance_floor (P +M Q) N c.
Proof.
  intros H1 H2 [_ HQ] F y Hy1 Hy2. mdim. rewrite quad_plus by auto. specialize (F y Hy1 Hy2). specialize (HQ y).
  assert (0 <= quad Q y) by (apply HQ; congruence). lra.
Qed.
Lemma floor_mask m d P N c : 0 <= d -> nr P = nc P -> nr N = nr P -> nc N = 1%nat ->
  (forall i, (i < nr P)%nat -> m i = true -> ent N i 0 = 0) -> variance_floor P N c -> variance_floor (mask_diag m d P) N c.
Proof.
  intros Hd H1 H2 H3 Hm F. rewrite mask_diag_eq by auto.
  assert (sel m (nr P) *M N = N) as E.
  { apply mat_ext; [symmetry; exact H2|reflexivity|]. intros i j Hi Hj. change (i < nr P)%nat in Hi. change (j < nc N)%nat in Hj. rewrite H3 in Hj. assert (j = 0%nat) as -> by lia.
    rewrite ent_mult. change (nc (sel m (nr P))) with (nr P). rewrite (sum_delta' _ i); [|intros k Hk Hne; unfold sel; rewrite ent_mk by lia; destruct (Nat.eqb_spec i k); [congruence|]; cbn; ring|lia].
    unfold sel. rewrite ent_mk by lia. rewrite Nat.eqb_refl. destruct (m i) eqn:Em; cbn; [|ring]. rewrite (Hm i Hi Em). ring. }
  rewrite <- E. apply floor_plus; [reflexivity|reflexivity| |].
  - apply psd_scl; auto. apply psd_sel.
  - apply floor_conj; auto.
Qed.
Lemma floor_jos n m P H N G D c : nr P = n -> nc P = n -> nr H = m -> nc H = n -> nr N = m -> nc N = m -> nr G = n -> nc G = m -> nr D = n -> nc D = 1%nat ->
  psd N -> H *M D = mO m 1 -> variance_floor P D c -> variance_floor (jos n P H N G) D c.
Proof.
  intros P1 P2 H1 H2 N1 N2 G1 G2 D1 D2 HN HD F. unfold jos. apply floor_plus; [mdim|mdim|apply psd_conj; [congruence|exact HN]|].
  assert ((meye n -M G *M H) *M D = D) as E.
  { rewrite mmult_minus_l by mdim. rewrite <- mmult_assoc by mdim. rewrite HD, mmult_O_r, mmult_eye_l by mdim. rewrite G1. apply mat_ext; [mdim|mdim|]. intros i j Hi Hj. mdim. rewrite ent_minus by mdim. rewrite ent_O. ring. }
  rewrite <- E. apply floor_conj; [mdim|congruence|congruence|congruence|exact F].
Qed.

(** ** corrections *)
Lemma move_bias K w a i : (3 + 3 * K <= i)%nat -> ent (world_move K w a) i 0 = 0.
Proof.
  intros H. unfold world_move. rewrite ent_mk_if. destruct (inr _ _ _ _); [|reflexivity].
  destruct (Nat.ltb_spec i 6).
  - destruct (Nat.eqb_spec i 2); [lia|reflexivity].
  - destruct (Nat.ltb_spec i (3 + 3 * K)); [lia|reflexivity].
Qed.
Lemma right_cov_dim K e s : wf K s -> nr (right_cov K e s) = (9 + 3 * K)%nat /\ nc (right_cov K e s) = (9 + 3 * K)%nat.
Proof. intros W. rewrite right_cov_to. destruct W. apply to_right_dim; auto. Qed.
Lemma correct_floor K m Z H N s e s' w a c : wf K s -> measurement K m Z H N -> psd N -> H *M world_move K w a = mO m 1 ->
  CorrectRightInvariant Z H N s e = Ok s' -> variance_floor (right_cov K e s) (world_move K w a) c -> variance_floor (right_cov K e s') (world_move K w a) c.
Proof.
  intros W M HN HD E F. destruct (CorrectRight_right K m Z H N s e s' W M E) as (Si & ES & _ & _ & ->).
  destruct (right_cov_dim K e s W) as [D1 D2]. destruct M as (M1 & M2 & M3 & M4 & M5 & M6).
  set (P1 := work_cov K (sen s) (right_cov K e s)) in *.
  destruct (work_cov_dim K (sen s) (right_cov K e s)) as [G2 G3]. fold P1 in G2, G3.
  assert (variance_floor P1 (world_move K w a) c) as F1.
  { unfold P1, work_cov. destruct (sen s); [exact F|]. apply floor_mask; [apply c4_pos|congruence|mdim|reflexivity| |exact F].
    intros i Hi Hb. unfold biasm in Hb. apply Nat.leb_le in Hb. apply move_bias. exact Hb. }
  assert (nr Si = m /\ nc Si = m) as [S1 S2].
  { apply minv_some in ES. unfold Sof in ES. rewrite ?nr_plus, ?nr_mult in ES. destruct ES as (? & ? & ? & _). split; congruence. }
  assert (nr (Gof P1 H Si) = (9 + 3 * K)%nat /\ nc (Gof P1 H Si) = m) as [GG1 GG2] by (unfold Gof; rewrite !nr_mult, !nc_mult; split; congruence).
  apply floor_mask; [apply c4_pos|unfold jos; mdim|unfold jos; mdim|reflexivity| |].
  - intros i Hi Hb. unfold yawm in Hb. apply Nat.eqb_eq in Hb. apply move_bias. lia.
  - apply (floor_jos _ m); auto; congruence.
Qed.

(** velocity and foot measurements do not see a movement of the world *)
Lemma vel_H_move K w a : (2 <= K)%nat -> vel_H K *M world_move K w a = mO 3 1.
Proof.
  intros HK. apply mat_ext; [reflexivity|reflexivity|]. intros i j Hi Hj. change (i < 3)%nat in Hi. change (j < 1)%nat in Hj. assert (j = 0%nat) as -> by lia.
  rewrite ent_O, ent_mult. change (nc (vel_H K)) with (9 + 3 * K)%nat.
  rewrite (sum_delta' _ (3 + i)); [|intros k Hk Hne; unfold vel_H; rewrite ent_mk by lia; destruct (Nat.eqb_spec k (3 + i)); [congruence|ring]|lia].
  unfold world_move. rewrite ent_mk by lia. destruct (Nat.ltb_spec (3 + i) 6); [|lia]. destruct (Nat.eqb_spec (3 + i) 2); [lia|]. ring.
Qed.
Lemma move_pos K w a k r : (r < 3)%nat -> (1 <= k < K)%nat -> ent (world_move K w a) (3 + 3 * k + r) 0 = vget a r.
Proof.
  intros Hr Hk. unfold world_move. rewrite ent_mk by lia. destruct (Nat.ltb_spec (3 + 3 * k + r) 6); [lia|]. destruct (Nat.ltb_spec (3 + 3 * k + r) (3 + 3 * K)); [|lia].
  f_equal. replace (3 + 3 * k + r)%nat with (r + (1 + k) * 3)%nat by lia. rewrite Nat.mod_add by lia. apply Nat.mod_small. lia.
Qed.
Lemma leg_H_move K o w a : (2 <= K)%nat -> (forall f, In f o -> (2 + ft_k f < K)%nat) -> leg_H K o *M world_move K w a = mO (3 * length o) 1.
Proof.
  intros HK Ho. apply mat_ext; [reflexivity|reflexivity|]. intros i j Hi Hj. change (i < 3 * length o)%nat in Hi. change (j < 1)%nat in Hj. assert (j = 0%nat) as -> by lia.
  rewrite ent_O, ent_mult. change (nc (leg_H K o)) with (9 + 3 * K)%nat.
  set (f := nth (i / 3) o no_foot). assert (In f o) as Hf. { apply nth_In. apply Nat.div_lt_upper_bound; lia. }
  specialize (Ho f Hf). pose proof (Nat.mod_upper_bound i 3 ltac:(lia)) as Hr. set (r := (i mod 3)%nat) in *.
  transitivity (sum (9 + 3 * K) (fun k => (if Nat.eqb (9 + 3 * ft_k f + r) k then 1 else 0) * ent (world_move K w a) k 0) +
                sum (9 + 3 * K) (fun k => (if Nat.eqb (6 + r) k then 1 else 0) * - ent (world_move K w a) k 0)).
  { rewrite <- sum_plus. apply sum_ext. intros k Hk. unfold leg_H. rewrite ent_mk by lia. fold f r.
    destruct (Nat.eqb_spec k (9 + 3 * ft_k f + r)), (Nat.eqb_spec (9 + 3 * ft_k f + r) k), (Nat.eqb_spec k (6 + r)), (Nat.eqb_spec (6 + r) k); try lia; ring. }
  rewrite !sum_one by lia.
  replace (9 + 3 * ft_k f + r)%nat with (3 + 3 * (2 + ft_k f) + r)%nat by lia. replace (6 + r)%nat with (3 + 3 * 1 + r)%nat by lia.
  rewrite !move_pos by lia. ring.
Qed.

(** ** removing and adding contacts *)
Lemma move_skip K w a k i : (2 + k < S K)%nat -> (i < 9 + 3 * K)%nat -> ent (world_move (S K) w a) (skip (3 * (3 + k)) 3 i) 0 = ent (world_move K w a) i 0.
Proof.
  intros Hk Hi. unfold skip. destruct (Nat.ltb_spec i (3 * (3 + k))) as [H|H]; unfold world_move; rewrite !ent_mk by lia.
  - destruct (Nat.ltb_spec i 6); [reflexivity|]. destruct (Nat.ltb_spec i (3 + 3 * S K)), (Nat.ltb_spec i (3 + 3 * K)); try lia; reflexivity.
  - destruct (Nat.ltb_spec (i + 3) 6), (Nat.ltb_spec i 6); try lia.
    destruct (Nat.ltb_spec (i + 3) (3 + 3 * S K)), (Nat.ltb_spec i (3 + 3 * K)); try lia; [|reflexivity].
    f_equal. replace (i + 3)%nat with (i + 1 * 3)%nat by lia. rewrite Nat.mod_add by lia. reflexivity.
Qed.
Lemma sel_move K w a k : (2 + k < S K)%nat -> selm (3 * (3 + k)) 3 (9 + 3 * S K) *M world_move (S K) w a = world_move K w a.
Proof.
  intros Hk. apply mat_ext; [mdim; lia|reflexivity|]. intros i j Hi Hj. mdim. change (j < 1)%nat in Hj. assert (j = 0%nat) as -> by lia.
  rewrite ent_mult, nc_selm. rewrite <- (move_skip K w a k i) by lia.
  rewrite <- (sum_one (9 + 3 * S K) (skip (3 * (3 + k)) 3 i) (fun l => ent (world_move (S K) w a) l 0)) by (apply skip_lt; lia).
  apply sum_ext. intros l Hl. unfold selm. rewrite ent_mk by lia. reflexivity.
Qed.
Lemma drop_floor K w a k P c : (2 + k < S K)%nat -> nr P = (9 + 3 * S K)%nat -> nc P = (9 + 3 * S K)%nat ->
  variance_floor P (world_move (S K) w a) c -> variance_floor (drop_rc (3 * (3 + k)) 3 P) (world_move K w a) c.
Proof.
  intros Hk H1 H2 F. rewrite drop_sel by congruence. rewrite H1. rewrite <- (sel_move K w a k Hk). apply floor_conj; mdim; auto.
Qed.
Lemma augF_move K f w a : (2 <= K)%nat -> augF RightInvariant K f *M world_move K w a = world_move (S K) w a.
Proof.
  intros HK. apply mat_ext; [change (nr (augF RightInvariant K f *M world_move K w a)) with (12 + 3 * K)%nat; mdim; lia|reflexivity|].
  intros i j Hi Hj. change (i < 12 + 3 * K)%nat in Hi. change (j < 1)%nat in Hj. assert (j = 0%nat) as -> by lia.
  rewrite ent_mult. change (nc (augF RightInvariant K f)) with (9 + 3 * K)%nat. rewrite row_F by auto.
  unfold phi. destruct (Nat.ltb_spec i (3 + 3 * K)); [|destruct (Nat.ltb_spec i (6 + 3 * K))].
  - unfold world_move. rewrite !ent_mk by lia. destruct (Nat.ltb_spec i 6); [reflexivity|]. destruct (Nat.ltb_spec i (3 + 3 * S K)), (Nat.ltb_spec i (3 + 3 * K)); try lia; reflexivity.
  - set (r := (i - (3 + 3 * K))%nat). assert (r < 3)%nat by (unfold r; lia).
    replace (6 + r)%nat with (3 + 3 * 1 + r)%nat by lia. rewrite move_pos by lia.
    replace i with (3 + 3 * K + r)%nat by (unfold r; lia). rewrite move_pos by lia. ring.
  - rewrite !move_bias by lia. reflexivity.
Qed.
Lemma aug_floor K X f cov P w a c : (2 <= K)%nat -> nr P = (9 + 3 * K)%nat -> nc P = (9 + 3 * K)%nat -> psd (ofM3 cov) ->
  variance_floor P (world_move K w a) c -> variance_floor (aug_cov RightInvariant K X f cov P) (world_move (S K) w a) c.
Proof.
  intros HK H1 H2 HC F. unfold aug_cov. rewrite <- (augF_move K f w a HK).
  apply floor_plus; [reflexivity|reflexivity|apply psd_conj; [reflexivity|exact HC]|]. apply floor_conj; auto. congruence.
Qed.

(** ** propagation *)
Lemma Phi_move K en X u b dt w a : (2 <= K)%nat -> Phi_of K RightInvariant en X u b dt *M world_move K w a = world_move K w a.
Proof.
  intros HK. apply mat_ext; [mdim|reflexivity|]. intros i j Hi Hj. rewrite nr_mult, nr_Phi in Hi. change (j < 1)%nat in Hj. assert (j = 0%nat) as -> by lia.
  rewrite ent_mult, nc_Phi. destruct (lin_ex i) as (bi & r & -> & Hr).
  replace (9 + 3 * K)%nat with (3 * (3 + K))%nat by lia. rewrite sum_blocks.
  rewrite (sum_delta' _ bi); [| |lia].
  - unfold Phi_of, blk. rewrite !ent_mk by lia. rewrite !div_lin, !mod_lin by lia. replace (3 * bi / 3)%nat with bi by (rewrite Nat.mul_comm, Nat.div_mul; lia).
    replace ((3 * bi) mod 3)%nat with 0%nat by (rewrite Nat.mul_comm, Nat.mod_mul; lia).
    unfold fR. rewrite Nat.eqb_refl. destruct (Nat.leb_spec bi K) as [HbK|HbK].
    + destruct r as [|[|[|r]]]; try lia; cbn [mget mid m00 m01 m02 m10 m11 m12 m20 m21 m22]; rewrite ?Nat.add_0_r; unfold mid; cbn [m00 m01 m02 m10 m11 m12 m20 m21 m22]; ring.
    + rewrite !move_bias by lia. ring.
  - intros k Hk Hne. unfold Phi_of, blk. rewrite !ent_mk by lia. rewrite !div_lin, !mod_lin by lia. replace (3 * k / 3)%nat with k by (rewrite Nat.mul_comm, Nat.div_mul; lia).
    replace ((3 * k) mod 3)%nat with 0%nat by (rewrite Nat.mul_comm, Nat.mod_mul; lia).
    destruct (Nat.leb_spec k K) as [HbK|HbK]; [|rewrite !move_bias by lia; ring].
    unfold fR. destruct (Nat.leb_spec k K); [|lia]. destruct (Nat.eqb_spec bi k); [congruence|].
    destruct k as [|[|k]].
    + unfold world_move. rewrite !ent_mk by lia. cbn [Nat.mul Nat.add Nat.ltb Nat.leb Nat.eqb].
      destruct bi as [|[|[|bi]]]; [lia| | |]; destruct r as [|[|[|r]]]; try lia; unfold skew, g_; cbn; ring.
    + unfold world_move. rewrite !ent_mk by lia. cbn [Nat.mul Nat.add Nat.ltb Nat.leb Nat.eqb]. ring.
    + destruct bi as [|[|[|bi]]]; destruct r as [|[|[|r]]]; try lia; cbn; ring.
Qed.
Lemma prop_floor K ip s u b dt w a c : wfp K s -> ip_err ip = RightInvariant -> 0 <= dt -> noise_ok ip -> contact_noise K (sQc s) ->
  variance_floor (sP s) (world_move K w a) c -> variance_floor (next_cov K ip s u b dt) (world_move K w a) c.
Proof.
  intros Wp He Hdt HN HC F. pose proof Wp as [[WX WT1 WT2 WP1 WP2] HK HT HQ1 HQ2].
  assert (variance_floor (prior_cov K ip s u b dt) (world_move K w a) c) as FP.
  { unfold prior_cov. rewrite He. apply floor_plus; [mdim|mdim| |].
    - apply psd_scl; [lra|]. apply psd_conj; [mdim|]. apply psd_Qfull; auto.
    - rewrite <- (Phi_move K (ip_enable ip) (sX s) u b dt w a HK). apply floor_conj; [mdim|congruence|mdim|reflexivity|exact F]. }
  unfold next_cov. destruct (ip_enable ip); [exact FP|]. apply floor_mask; [lra|unfold prior_cov; mdim|unfold prior_cov; mdim|reflexivity| |exact FP].
  intros i Hi Hb. unfold biasm in Hb. apply Nat.leb_le in Hb. apply move_bias. exact Hb.
Qed.
