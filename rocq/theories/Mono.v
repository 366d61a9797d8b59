(** C86: the filter is monotone in its uncertainties (Loewner order). *)
From Coq Require Import Reals ZArith List Bool Lia Lra.
From Verif Require Import Res Vec3 Mat MatInv Psd Spec LieGroup LieSO3 LieSEK RobotState StateProofs Inekf SpecFilter
  InekfProofs InekfThms Imu Propagation SpecProp Blk PropagationProofs PropagationThms SpecMono ImuNeg.
Import ListNotations.
Local Open Scope R_scope.

(** ** Loewner order algebra *)
Lemma ll_conj A P Q : nr P = nr Q -> nc P = nc Q -> nc A = nr P -> nr P = nc P -> loewner_le P Q ->
  loewner_le (A *M P *M mT A) (A *M Q *M mT A).
Proof.
  intros H1 H2 H3 H4 (L1 & L2 & L3). split; [mdim|]. split; [mdim|].
  assert (A *M Q *M mT A -M A *M P *M mT A = A *M (Q -M P) *M mT A) as ->.
  { rewrite mmult_minus_r by mdim. rewrite mmult_minus_l by mdim. reflexivity. }
  apply psd_conj; [mdim|auto].
Qed.
Lemma ll_plus A B P Q : nr A = nr P -> nc A = nc P -> loewner_le A B -> loewner_le P Q -> loewner_le (A +M P) (B +M Q).
Proof.
  intros H1 H2 (L1 & L2 & L3) (M1 & M2 & M3). split; [mdim|]. split; [mdim|].
  assert (B +M Q -M (A +M P) = (B -M A) +M (Q -M P)) as ->.
  { apply mat_ext; [mdim|mdim|]. intros i j Hi Hj. repeat (first [rewrite ent_plus by mdim | rewrite ent_minus by mdim]). ring. }
  apply psd_plus; [mdim|auto|auto].
Qed.
Lemma ll_scl a A B : 0 <= a -> loewner_le A B -> loewner_le (a *S A) (a *S B).
Proof.
  intros Ha (L1 & L2 & L3). split; [mdim|]. split; [mdim|].
  assert (a *S B -M a *S A = a *S (B -M A)) as ->.
  { apply mat_ext; [mdim|mdim|]. intros i j Hi Hj. repeat (first [rewrite ent_scl | rewrite ent_minus by mdim]). ring. }
  apply psd_scl; auto.
Qed.
Lemma ll_trans A B C : loewner_le A B -> loewner_le B C -> loewner_le A C.
Proof.
  intros (L1 & L2 & L3) (M1 & M2 & M3). split; [congruence|]. split; [congruence|].
  assert (C -M A = (C -M B) +M (B -M A)) as ->.
  { apply mat_ext; [mdim|mdim|]. intros i j Hi Hj. repeat (first [rewrite ent_plus by mdim | rewrite ent_minus by mdim]). ring. }
  apply psd_plus; [mdim|auto|auto].
Qed.
Lemma ll_refl A : nr A = nc A -> loewner_le A A.
Proof.
  intros H. split; [reflexivity|]. split; [reflexivity|].
  assert (A -M A = mO (nr A) (nr A)) as ->.
  { apply mat_ext; [mdim|mdim|]. intros i j Hi Hj. rewrite ent_minus, ent_O by mdim. ring. }
  apply psd_O.
Qed.
Lemma ll_mask m c P Q : nr P = nc P -> loewner_le P Q -> loewner_le (mask_diag m c P) (mask_diag m c Q).
Proof.
  intros H L. pose proof L as (L1 & L2 & _).
  rewrite !mask_diag_eq by congruence. rewrite <- L1. apply ll_plus; [reflexivity|reflexivity| |].
  - apply ll_conj; auto.
  - apply ll_refl. reflexivity.
Qed.

(** ** One Kalman update *)
Lemma jos_mono P Q H N M G Si Ti n m :
  psd P -> psd Q -> psd N -> psd M -> nr P = n -> nr H = m -> nc H = n -> nr N = m ->
  loewner_le P Q -> loewner_le N M -> minv (Sof P H N) = Some Si -> minv (Sof Q H M) = Some Ti -> G = Gof P H Si ->
  loewner_le (jos n P H N G) (jos n Q H M (Gof Q H Ti)).
Proof.
  intros HP HQ HN HM D1 D2 D3 D4 L1 L2 E1 E2 ->.
  pose proof (psd_sq _ HP). pose proof (psd_sq _ HN). pose proof L1 as (A1 & A2 & _). pose proof L2 as (B1 & B2 & _).
  destruct (minv_some _ _ E2) as (_ & S1 & S2 & _).
  assert (nr (Sof Q H M) = m) as E0 by (unfold Sof; mdim). rewrite E0 in *.
  apply (ll_trans _ (jos n P H N (Gof Q H Ti))).
  - pose proof (gain_optimal P H N (Gof P H Si) n m HP HN D1 D2 D3 D4) as O.
    unfold joseph_form in O. rewrite D1 in O. apply O.
    + apply (Gof_gain P H N n m); auto; congruence.
    + unfold Gof; mdim.
    + unfold Gof; mdim.
  - unfold jos. assert (nr (Gof Q H Ti) = n /\ nc (Gof Q H Ti) = m) as [F1 F2] by (unfold Gof; split; mdim).
    apply ll_plus; [mdim|mdim| |].
    + apply ll_conj; [mdim|mdim|mdim|mdim|auto].
    + apply ll_conj; [mdim|mdim|mdim|mdim|auto].
Qed.

Lemma thm_correct_mono K m Z1 Z2 H N1 N2 e1 e2 s1 s2 s1' s2' :
  wf K s1 -> wf K s2 -> measurement K m Z1 H N1 -> measurement K m Z2 H N2 -> sen s1 = sen s2 ->
  psd (sP s1) -> psd (sP s2) -> psd N1 -> psd N2 ->
  loewner_le (right_cov K e1 s1) (right_cov K e2 s2) -> loewner_le N1 N2 ->
  CorrectRightInvariant Z1 H N1 s1 e1 = Ok s1' -> CorrectRightInvariant Z2 H N2 s2 e2 = Ok s2' ->
  loewner_le (right_cov K e1 s1') (right_cov K e2 s2').
Proof.
  intros W1 W2 M1 M2 En HP1 HP2 HN1 HN2 L LN C1 C2.
  destruct (CorrectRight_right K m Z1 H N1 s1 e1 s1' W1 M1 C1) as (Si & ES & _ & _ & ->).
  destruct (CorrectRight_right K m Z2 H N2 s2 e2 s2' W2 M2 C2) as (Ti & ET & _ & _ & ->).
  assert (forall s e, wf K s -> psd (sP s) -> psd (right_cov K e s) /\ nr (right_cov K e s) = (9 + 3 * K)%nat /\ nc (right_cov K e s) = (9 + 3 * K)%nat) as F.
  { intros s e W HP. rewrite right_cov_to. destruct W. split; [apply to_right_psd; auto|apply to_right_dim; auto]. }
  destruct (F s1 e1 W1 HP1) as (P1 & P2 & P3). destruct (F s2 e2 W2 HP2) as (Q1 & Q2 & Q3). clear F.
  set (A := right_cov K e1 s1) in *. set (B := right_cov K e2 s2) in *.
  destruct M1 as (A1 & A2 & A3 & A4 & A5 & A6).
  apply ll_mask; [unfold jos; mdim|].
  destruct (work_cov_dim K (sen s1) A) as [D1 D2]. 
  apply (jos_mono _ _ H N1 N2 _ Si Ti (9 + 3 * K) m); auto; try congruence.
  - apply work_cov_psd; auto.
  - apply work_cov_psd; auto.
  - rewrite <- En. destruct (sen s1); cbn [work_cov]; auto. apply ll_mask; [congruence|auto].
Qed.

Lemma right_keeps_psd K m Z H N s e s' : wf K s -> measurement K m Z H N -> psd (sP s) -> psd N ->
  CorrectRightInvariant Z H N s e = Ok s' -> psd (sP s').
Proof.
  intros W M HP HN E. rewrite (CorrectRight_eq K m) in E by auto. cbv zeta in E.
  destruct (P1R_facts K s e W HP) as (F1 & F2 & F3). set (P1 := to_right _ _ _ _) in *.
  destruct M as (M1 & M2 & M3 & M4 & M5 & M6).
  destruct (minv (Sof P1 H N)) as [Si|] eqn:ES; [|discriminate]. injection E as <-. srs.
  destruct (minv_some _ _ ES) as (_ & S1 & S2 & _).
  assert (nr (Sof P1 H N) = m) as E0 by (unfold Sof; mdim). rewrite E0 in *.
  assert (nr (Gof P1 H Si) = (9 + 3 * K)%nat /\ nc (Gof P1 H Si) = m) as [G1 G2] by (unfold Gof; split; mdim).
  apply from_right_psd; [unfold jos; mdim|]. apply psd_mask_diag; [unfold c4; lra|]. unfold jos. apply psd_plus; [mdim| |].
  - apply psd_conj; [mdim|auto].
  - apply psd_conj; [mdim|auto].
Qed.

(** a sequence of right-invariant corrections *)
Lemma thm_correct_seq_mono K : forall cs1 cs2 s1 s2 s1' s2' e1 e2,
  wf K s1 -> wf K s2 -> sen s1 = sen s2 -> psd (sP s1) -> psd (sP s2) ->
  Forall (fun c => corr_ok K c /\ psd (c_N c) /\ c_right c = true /\ c_e c = e1) cs1 ->
  Forall (fun c => corr_ok K c /\ psd (c_N c) /\ c_right c = true /\ c_e c = e2) cs2 ->
  Forall2 (fun c1 c2 => c_H c1 = c_H c2 /\ loewner_le (c_N c1) (c_N c2)) cs1 cs2 ->
  loewner_le (right_cov K e1 s1) (right_cov K e2 s2) ->
  foldM apply_corr s1 cs1 = Ok s1' -> foldM apply_corr s2 cs2 = Ok s2' ->
  loewner_le (right_cov K e1 s1') (right_cov K e2 s2').
Proof.
  induction cs1 as [|c1 cs1 IH]; intros cs2 s1 s2 s1' s2' e1 e2 W1 W2 En HP1 HP2 F1 F2 F L C1 C2;
    inversion F as [|? d2 ? ds2 [EH LN] F']; subst; cbn [foldM] in C1, C2.
  - injection C1 as <-. injection C2 as <-. exact L.
  - apply bind_inv in C1. destruct C1 as (t1 & C1 & R1). apply bind_inv in C2. destruct C2 as (t2 & C2 & R2).
    inversion F1 as [|? ? (K1 & N1 & T1 & X1) F1']; subst. inversion F2 as [|? ? (K2 & N2 & T2 & X2) F2']; subst.
    destruct (thm_apply_group K c1 s1 t1) as [V1 U1]; auto. destruct (thm_apply_group K d2 s2 t2) as [V2 U2]; auto.
    unfold apply_corr in C1, C2. rewrite T1 in C1. rewrite T2 in C2.
    destruct K1 as [m M1]. destruct K2 as [m2 M2]. rewrite <- EH in C2, M2.
    assert (m2 = m) as ->. { destruct M1 as (? & ? & Hh & _). destruct M2 as (? & ? & Hh2 & _). congruence. }
    apply (IH ds2 t1 t2 s1' s2' (c_e c1) (c_e d2)); auto.
    + destruct U1 as (?&?&?&?&?&?&?&?). destruct U2 as (?&?&?&?&?&?&?&?). congruence.
    + apply (right_keeps_psd K m _ _ _ _ _ _ W1 M1 HP1 N1 C1).
    + apply (right_keeps_psd K m _ _ _ _ _ _ W2 M2 HP2 N2 C2).
    + apply (thm_correct_mono K m _ _ _ _ _ _ _ s1 s2 t1 t2 W1 W2 M1 M2); auto.
Qed.

(** ** Propagation *)
Lemma ll_put n Q Q' r A B : nr Q = n -> nc Q = n -> nr Q' = n -> nc Q' = n -> (r + 3 <= n)%nat ->
  (forall i j, (r <= i < r + 3)%nat -> ent Q i j = 0) -> (forall i j, (r <= i < r + 3)%nat -> ent Q' i j = 0) ->
  loewner_le Q Q' -> loewner_le (ofM3 A) (ofM3 B) -> loewner_le (put Q r r (ofM3 A)) (put Q' r r (ofM3 B)).
Proof.
  intros H1 H2 H3 H4 H5 Z1 Z2 L LA.
  rewrite (put_emb n Q), (put_emb n Q') by auto. apply ll_plus; [unfold emb; mdim|unfold emb; mdim|auto|].
  rewrite !emb_conj by auto. apply ll_conj; auto.
Qed.
(** configurations that differ in the four noise covariances only *)
Lemma ll_Qfull K ip1 ip2 Q : (2 <= K)%nat -> nr Q = (9 + 3 * K)%nat -> nc Q = (9 + 3 * K)%nat ->
  (forall i j, (i < 9 \/ 3 + 3 * K <= i)%nat -> ent Q i j = 0) -> ip_enable ip1 = ip_enable ip2 ->
  loewner_le (ofM3 (ip_gyro_cov ip1)) (ofM3 (ip_gyro_cov ip2)) ->
  loewner_le (ofM3 (ip_accel_cov ip1)) (ofM3 (ip_accel_cov ip2)) ->
  loewner_le (ofM3 (ip_gyro_bias_cov ip1)) (ofM3 (ip_gyro_bias_cov ip2)) ->
  loewner_le (ofM3 (ip_accel_bias_cov ip1)) (ofM3 (ip_accel_bias_cov ip2)) ->
  loewner_le (Qfull K ip1 Q) (Qfull K ip2 Q).
Proof.
  intros HK D1 D2 HZ En L1 L2 L3 L4. unfold Qfull. cbv zeta. rewrite <- En.
  assert (forall c1 c2 i j, (6 <= i < 9 \/ 3 + 3 * K <= i)%nat -> ent (put (put Q 0 0 (ofM3 c1)) 3 3 (ofM3 c2)) i j = 0) as Z2.
  { intros c1 c2 i j Hi. rewrite !ent_put_out by (mdim; lia). apply HZ. lia. }
  assert (loewner_le (put (put Q 0 0 (ofM3 (ip_gyro_cov ip1))) 3 3 (ofM3 (ip_accel_cov ip1)))
    (put (put Q 0 0 (ofM3 (ip_gyro_cov ip2))) 3 3 (ofM3 (ip_accel_cov ip2)))) as L.
  { assert (forall c i j, (3 <= i < 6)%nat -> ent (put Q 0 0 (ofM3 c)) i j = 0) as Z1.
    { intros c i j Hi. rewrite ent_put_out by (mdim; lia). apply HZ. lia. }
    apply (ll_put (9 + 3 * K)); mdim; auto; try lia.
    apply (ll_put (9 + 3 * K)); mdim; auto; try lia; [intros; apply HZ; lia|intros; apply HZ; lia|apply ll_refl; congruence]. }
  destruct (ip_enable ip1); auto.
  assert (forall c1 c2 c3 i j, (6 + 3 * K <= i)%nat -> ent (put (put (put Q 0 0 (ofM3 c1)) 3 3 (ofM3 c2)) (3 + 3 * K) (3 + 3 * K) (ofM3 c3)) i j = 0) as Z3.
  { intros c1 c2 c3 i j Hi. rewrite ent_put_out by (mdim; lia). apply Z2. lia. }
  apply (ll_put (9 + 3 * K)); mdim; auto; try lia; [intros; apply Z3; lia|intros; apply Z3; lia|].
  apply (ll_put (9 + 3 * K)); mdim; auto; try lia; [intros; apply Z2; lia|intros; apply Z2; lia].
Qed.
Lemma thm_propagate_mono K ip1 ip2 m s1 s2 t0 s1' s2' :
  wfp K s1 -> wfp K s2 -> stprop s1 = Some t0 -> stprop s2 = Some t0 -> t0 <= i_t m ->
  sX s1 = sX s2 -> sTheta s1 = sTheta s2 -> sQc s1 = sQc s2 ->
  (forall i j, (i < 9 \/ 3 + 3 * K <= i)%nat -> ent (sQc s1) i j = 0) ->
  quieter ip1 ip2 ->
  loewner_le (sP s1) (sP s2) ->
  propagate_with ip1 m s1 = Ok s1' -> propagate_with ip2 m s2 = Ok s2' ->
  loewner_le (sP s1') (sP s2') /\ sX s1' = sX s2'.
Proof.
  intros W1 W2 T1 T2 Hle EX ET EQ HZ (Ee & ER & Et & En & L1 & L2 & L3 & L4) LP H1 H2.
  rewrite (step_eq K ip1 m s1 t0 W1 T1) in H1. rewrite (step_eq K ip2 m s2 t0 W2 T2) in H2.
  injection H1 as <-. injection H2 as <-. cbn [sP sX].
  assert (gbias s1 = gbias s2) as Eg by (unfold gbias; rewrite ET; reflexivity).
  assert (abias s1 = abias s2) as Ea by (unfold abias; rewrite ET; reflexivity).
  assert (rate ip1 m (gbias s1) = rate ip2 m (gbias s2)) as Ew by (rewrite Eg; unfold rate; rewrite ER; reflexivity).
  assert (accel ip1 m (gbias s1) (abias s1) = accel ip2 m (gbias s2) (abias s2)) as Eac by (rewrite Ea; unfold accel; rewrite Ew, ER, Et; reflexivity).
  rewrite Ew, Eac, <- EX. split; [|reflexivity].
  set (w := rate ip2 m (gbias s2)). set (a := accel ip2 m (gbias s2) (abias s2)).
  pose proof W1 as [[WX WT1 WT2 WP1 WP2] HK HT HQ1 HQ2]. pose proof W2 as [[VX VT1 VT2 VP1 VP2] _ _ VQ1 VQ2].
  assert (loewner_le (prior_cov K ip1 s1 w a (i_t m - t0)) (prior_cov K ip2 s2 w a (i_t m - t0))) as PP.
  { unfold prior_cov. rewrite <- Ee, <- En, <- EX, <- EQ. cbv zeta.
    apply ll_plus; [mdim|mdim| |].
    - apply ll_conj; mdim; auto.
    - apply ll_scl; [lra|]. apply ll_conj; mdim; auto.
      apply ll_Qfull; auto. }
  unfold next_cov. rewrite <- En. destruct (ip_enable ip1); auto. apply ll_mask; auto.
Qed.

Lemma thm_propagate_seq_mono K ip1 ip2 used : quieter ip1 ip2 -> forall s1 s2 t0 s1' s2',
  wfp K s1 -> wfp K s2 -> stprop s1 = Some t0 -> stprop s2 = Some t0 -> nondec t0 (map i_t used) ->
  sX s1 = sX s2 -> sTheta s1 = sTheta s2 -> sQc s1 = sQc s2 -> contact_noise K (sQc s1) ->
  loewner_le (sP s1) (sP s2) ->
  foldM (fun s m => propagate_with ip1 m s) s1 used = Ok s1' -> foldM (fun s m => propagate_with ip2 m s) s2 used = Ok s2' ->
  loewner_le (sP s1') (sP s2') /\ sX s1' = sX s2'.
Proof.
  intros Q. induction used as [|m u IH]; intros s1 s2 t0 s1' s2' W1 W2 T1 T2 ND EX ET EQ HC LP H1 H2; cbn [foldM] in H1, H2.
  - injection H1 as <-. injection H2 as <-. auto.
  - apply bind_inv in H1. destruct H1 as (r1 & H1 & R1). apply bind_inv in H2. destruct H2 as (r2 & H2 & R2).
    cbn [map nondec] in ND. destruct ND as [Hle ND].
    destruct (thm_propagate_mono K ip1 ip2 m s1 s2 t0 r1 r2) as [A B]; auto.
    { intros i j Hij. destruct HC as [_ HZ]. apply HZ. tauto. }
    destruct (step_wfp K ip1 m s1 t0 r1 W1 T1 H1) as (A1 & A2 & A3 & A4 & A5 & _).
    destruct (step_wfp K ip2 m s2 t0 r2 W2 T2 H2) as (B1 & B2 & B3 & B4 & B5 & _).
    apply (IH r1 r2 (i_t m) s1' s2'); auto; try congruence.
Qed.

(** a concrete case *)
Lemma ex_mono : exists cs1 cs2 s1 s2 s1' s2',
  wf 3 s1 /\ wf 3 s2 /\ sen s1 = sen s2 /\ psd (sP s1) /\ psd (sP s2) /\
  Forall (fun c => corr_ok 3 c /\ psd (c_N c) /\ c_right c = true /\ c_e c = RightInvariant) cs1 /\
  Forall (fun c => corr_ok 3 c /\ psd (c_N c) /\ c_right c = true /\ c_e c = RightInvariant) cs2 /\
  Forall2 (fun c1 c2 => c_H c1 = c_H c2 /\ loewner_le (c_N c1) (c_N c2)) cs1 cs2 /\
  loewner_le (right_cov 3 RightInvariant s1) (right_cov 3 RightInvariant s2) /\ length cs1 = 1%nat /\
  foldM apply_corr s1 cs1 = Ok s1' /\ foldM apply_corr s2 cs2 = Ok s2'.
Proof.
  set (H := mk 2 18 (fun i j => INR (i + j))).
  set (C1 := mkCorr true (mk 2 1 (fun i _ => INR i + 1)) H ((1 / 2) *S meye 2) RightInvariant).
  set (C2 := mkCorr true (mO 2 1) H (meye 2) RightInvariant).
  set (s1 := RS_XTP (meye 6) (mO 6 1) ((1 / 2) *S meye 18)). set (s2 := RS_XTP (meye 6) (mO 6 1) (meye 18)).
  assert (forall n, loewner_le ((1 / 2) *S meye n) (meye n)) as LE.
  { intros n. split; [reflexivity|]. split; [reflexivity|].
    assert (meye n -M (1 / 2) *S meye n = (1 / 2) *S meye n) as ->.
    { apply mat_ext; [reflexivity|reflexivity|]. intros i j Hi Hj. rewrite ent_minus, ent_scl by mdim. lra. }
    apply psd_scl; [lra|apply psd_eye]. }
  assert (wf 3 s1) as W1 by (constructor; cbn; auto; apply (LieSEK.SEK_eye 3)).
  assert (wf 3 s2) as W2 by (constructor; cbn; auto; apply (LieSEK.SEK_eye 3)).
  assert (psd (sP s1)) as P1 by (apply psd_scl; [lra|apply psd_eye]).
  assert (psd (sP s2)) as P2 by apply psd_eye.
  assert (corr_ok 3 C1) as O1 by (exists 2%nat; repeat split).
  assert (corr_ok 3 C2) as O2 by (exists 2%nat; repeat split).
  assert (pd (c_N C1)) as N1 by (apply pd_scl; [lra|apply pd_eye]).
  assert (pd (c_N C2)) as N2 by apply pd_eye.
  destruct (thm_seq_psd 3 [C1] s1 W1 P1) as (s1' & R1 & _); [repeat constructor; auto|].
  { apply N1. } { apply N1. }
  destruct (thm_seq_psd 3 [C2] s2 W2 P2) as (s2' & R2 & _); [repeat constructor; auto|].
  { apply N2. } { apply N2. }
  exists [C1], [C2], s1, s2, s1', s2'. repeat (split; [first [assumption|reflexivity]|]).
  split. { constructor; [|constructor]. split; auto. split; [apply pd_psd; auto|]. split; reflexivity. }
  split. { constructor; [|constructor]. split; auto. split; [apply pd_psd; auto|]. split; reflexivity. }
  split. { constructor; [|constructor]. split; [reflexivity|]. apply LE. }
  split. { apply LE. }
  split; [reflexivity|]. split; assumption.
Qed.

(** the configuration file's standard deviations *)
Lemma ll_std a b : a * a <= b * b -> loewner_le (ofM3 ((a * a) *ms mid)) (ofM3 ((b * b) *ms mid)).
Proof.
  intros H. split; [reflexivity|]. split; [reflexivity|].
  assert (ofM3 ((b * b) *ms mid) -M ofM3 ((a * a) *ms mid) = ofM3 ((b * b - a * a) *ms mid)) as ->.
  { apply mat_ext; [reflexivity|reflexivity|]. intros i j Hi Hj. change (i < 3)%nat in Hi. change (j < 3)%nat in Hj.
    rewrite ent_minus by reflexivity. rewrite !ent_ofM3 by lia.
    destruct i as [|[|[|i]]], j as [|[|[|j]]]; try lia; cbn; ring. }
  apply psd_std. lra.
Qed.
Lemma thm_quieter q1 q2 e c1 c2 :
  c_quat c1 = c_quat c2 -> c_trans c1 = c_trans c2 -> c_enable c1 = c_enable c2 ->
  (forall f, In f [c_gyro_std; c_accel_std; c_gyro_bias_std; c_accel_bias_std] ->
     dflt (f c1) (1 / 10) * dflt (f c1) (1 / 10) <= dflt (f c2) (1 / 10) * dflt (f c2) (1 / 10)) ->
  quieter (ImuPropagation q1 e c1) (ImuPropagation q2 e c2).
Proof.
  intros E1 E2 E3 H. unfold quieter, ImuPropagation.
  cbn [ip_err ip_Rib ip_t ip_enable ip_gyro_cov ip_accel_cov ip_gyro_bias_cov ip_accel_bias_cov].
  rewrite E1, E2, E3. do 4 (split; [reflexivity|]).
  split; [apply ll_std, H; left; reflexivity|]. split; [apply ll_std, H; right; left; reflexivity|].
  split; [apply ll_std, H; right; right; left; reflexivity|apply ll_std, H; right; right; right; left; reflexivity].
Qed.
Lemma ex_quieter : exists c1 c2, c1 <> c2 /\ c_quat c1 = c_quat c2 /\ c_trans c1 = c_trans c2 /\ c_enable c1 = c_enable c2 /\
  (forall f, In f [c_gyro_std; c_accel_std; c_gyro_bias_std; c_accel_bias_std] ->
     dflt (f c1) (1 / 10) * dflt (f c1) (1 / 10) <= dflt (f c2) (1 / 10) * dflt (f c2) (1 / 10)).
Proof.
  set (c2 := mkICfg None None None None (Some 1) None (Some 2) None None None None None).
  exists no_cfg, c2. split; [discriminate|]. do 3 (split; [reflexivity|]).
  intros f [<-|[<-|[<-|[<-|[]]]]]; cbn; lra.
Qed.
