(** Proofs: C77 — what a correction guarantees. *)
From Coq Require Import Reals ZArith List Bool Arith Lia Lra.
From Verif Require Import Res Vec3 Mat MatInv Psd Spec LieGroup LieSO3 LieSEK RobotState StateProofs StateHist Inekf SpecFilter InekfProofs InekfThms Blk Imu Propagation SpecProp
  PropagationThms ImuThms Queue VelCorr LegCorr SpecCorr VelThms PsdBlk LegThms LegAdd LegLoop LegUpd LegHist Estimator SpecEst
  ConvLeg ConvFilter SpecObs Obs ObsEst ObsThms.
Import ListNotations.
Local Open Scope R_scope.

Lemma correct_bound K m Z H N s e s' L : wf K s -> measurement K m Z H N -> psd (sP s) -> psd N -> nr L = (9 + 3 * K)%nat -> nc L = m -> H *M L = meye m ->
  (forall i j, (3 + 3 * K <= j)%nat -> ent H i j = 0) -> CorrectRightInvariant Z H N s e = Ok s' ->
  forall u, nr u = m -> nc u = 1%nat -> quad (right_cov K e s') (mT H *M u) <= quad N u.
Proof.
  intros W M HP HN L1 L2 HL HB E u U1 U2. destruct (CorrectRight_right K m Z H N s e s' W M E) as (Si & ES & EX & ET & ->).
  assert (psd (right_cov K e s) /\ nr (right_cov K e s) = (9 + 3 * K)%nat /\ nc (right_cov K e s) = (9 + 3 * K)%nat) as (F1 & F2 & F3).
  { rewrite right_cov_to. destruct W. split; [apply to_right_psd; auto|apply to_right_dim; auto]. }
  set (P1 := work_cov K (sen s) (right_cov K e s)) in *.
  assert (psd P1) as G1 by (apply work_cov_psd; auto).
  destruct (work_cov_dim K (sen s) (right_cov K e s)) as [G2 G3]. fold P1 in G2, G3.
  destruct M as (M1 & M2 & M3 & M4 & M5 & M6).
  assert (nr Si = m /\ nc Si = m) as [S1 S2].
  { apply minv_some in ES. unfold Sof in ES. rewrite ?nr_plus, ?nr_mult in ES. destruct ES as (? & ? & ? & _). split; congruence. }
  rewrite quad_mask.
  2:{ unfold jos. mdim. } 2:{ unfold jos. mdim. } 2:{ mdim. }
  2:{ intros i Hi Hm. unfold yawm in Hm. apply Nat.eqb_eq in Hm. rewrite ent_mult. change (nc (mT H)) with (nr H). apply sum_zero. intros k Hk. rewrite ent_T, HB by lia. ring. }
  assert (is_gain P1 H N (Gof P1 H Si)) as IG by (apply (Gof_gain _ _ _ (9 + 3 * K) m); auto; congruence).
  destruct (gain_optimal P1 H N (Gof P1 H Si) (9 + 3 * K) m G1 HN ltac:(congruence) M3 M4 M5 IG L L1 L2) as (O1 & O2 & O3).
  unfold joseph_form in O1, O2, O3. rewrite G2, F2 in O1, O2, O3. fold (jos (9 + 3 * K) P1 H N (Gof P1 H Si)) in *. fold (jos (9 + 3 * K) P1 H N L) in *.
  apply psd_quad with (x := mT H *M u) in O3; [|unfold jos; mdim|mdim]. rewrite quad_minus in O3 by auto.
  enough (quad (jos (9 + 3 * K) P1 H N L) (mT H *M u) = quad N u) by lra.
  unfold jos. rewrite quad_plus by mdim. rewrite !quad_conj by mdim.
  replace (mT (meye (9 + 3 * K) -M L *M H) *M (mT H *M u)) with (mO (9 + 3 * K) 1).
  - rewrite quad_0 by congruence. rewrite Rplus_0_l. f_equal. rewrite mmult_assoc by mdim. rewrite <- mT_mult by mdim. rewrite HL, mT_eye, mmult_eye_l by mdim. reflexivity.
  - rewrite mmult_assoc by mdim. rewrite <- mT_mult by mdim. rewrite mmult_minus_r by mdim. rewrite mmult_eye_r by mdim. rewrite mmult_assoc by mdim. rewrite HL, mmult_eye_l by mdim.
    symmetry. apply mat_ext; [mdim|mdim|]. intros i j Hi Hj. rewrite ent_O, ent_mult. apply sum_zero. intros k Hk. mdim. rewrite ent_T, ent_minus by mdim. ring.
Qed.

(** ** velocity *)
Lemma vel_H_T K u : (1 <= K)%nat -> mT (vel_H K) *M ofV3 u = embed (9 + 3 * K) 1 u.
Proof.
  intros HK. apply mat_ext; [reflexivity|reflexivity|]. intros i j Hi Hj. change (i < 9 + 3 * K)%nat in Hi. change (j < 1)%nat in Hj. assert (j = 0%nat) as -> by lia.
  rewrite ent_mult. change (nc (mT (vel_H K))) with 3%nat. cbn [sum]. rewrite !ent_T. unfold vel_H. rewrite !ent_mk by lia. rewrite !ent_ofV3 by lia.
  destruct (Nat.lt_ge_cases i 3); [|destruct (Nat.lt_ge_cases i 6)].
  - rewrite ent_embed_0. repeat (match goal with |- context [Nat.eqb ?a ?b] => destruct (Nat.eqb_spec a b); [lia|] end). ring. intros E. rewrite Nat.div_small in E by lia. lia.
  - replace i with (3 * 1 + (i - 3))%nat at 4 by lia. rewrite ent_embed by lia.
    destruct i as [|[|[|[|[|[|i]]]]]]; try lia; cbn; ring.
  - rewrite ent_embed_0. repeat (match goal with |- context [Nat.eqb ?a ?b] => destruct (Nat.eqb_spec a b); [lia|] end). ring. intros E. assert (2 <= i / 3)%nat by (apply Nat.div_le_lower_bound; lia). lia.
Qed.
Lemma vel_H_L K : (1 <= K)%nat -> vel_H K *M mT (vel_H K) = meye 3.
Proof.
  intros HK. apply mat_ext; [reflexivity|reflexivity|]. intros i j Hi Hj. change (i < 3)%nat in Hi. change (j < 3)%nat in Hj.
  rewrite ent_mult. change (nc (vel_H K)) with (9 + 3 * K)%nat. rewrite (sum_delta' _ (3 + i)); [| |lia].
  - rewrite ent_T. unfold vel_H. rewrite !ent_mk by lia. rewrite ent_eye by lia. repeat (match goal with |- context [Nat.eqb ?a ?b] => destruct (Nat.eqb_spec a b) end); try lia; ring.
  - intros k Hk Hne. unfold vel_H. rewrite ent_mk by lia. destruct (Nat.eqb_spec k (3 + i)); [lia|]. ring.
Qed.
Lemma thm_vel_bound K c s sched c' s' : wfp K s -> psd (sP s) -> vel_noise_ok c -> vel_Correct c s sched = Ok (true, c', s') ->
  m3_le (cov_block (right_cov K (vc_err c) s') 1) (rot (sX s) *m vc_cov c *m mtr (rot (sX s))).
Proof.
  intros W HP HN E. destruct (vel_Correct_spec _ _ _ _ _ _ E) as (_ & f & _ & _ & _ & G). destruct (f_used f) as [m|]; [|destruct G; discriminate]. destruct G as [_ G].
  rewrite (vel_update_eq K) in G by auto. pose proof (wp_K _ _ W) as HK. pose proof (wp_wf _ _ W) as W0.
  assert (wf K (set_time s (vm_t m))) as W' by (destruct W0; split; auto).
  destruct (thm_right_group _ _ _ _ _ _ _ _ W' (vel_measurement K _ _ _) G) as [W2 _]. destruct (right_cov_dim K (vc_err c) s' W2) as [D1 D2].
  intros u. rewrite <- (quad_embed (9 + 3 * K)) by (auto; lia). rewrite <- quad3. rewrite <- vel_H_T by lia.
  eapply (correct_bound K 3 _ _ (vel_N s (vc_cov c)) _ _ _ (mT (vel_H K))); [exact W'|apply vel_measurement|exact HP| | | | | |exact G|reflexivity|reflexivity].
  - apply pd_psd, pd_rot; [apply W0|exact HN].
  - reflexivity.
  - reflexivity.
  - apply vel_H_L. lia.
  - intros i j Hj. unfold vel_H. rewrite ent_mk_if. destruct (inr _ _ _ _) eqn:Ei; [|reflexivity]. unfold inr in Ei. apply andb_prop in Ei. destruct Ei as [Ei Ej]. apply Nat.ltb_lt in Ei, Ej.
    destruct (Nat.eqb_spec j (3 + i)); [lia|reflexivity].
Qed.

(** ** feet *)
Definition pick (K : nat) (o : list foot) : mat :=
  mk (9 + 3 * K) (3 * length o) (fun i j => if Nat.eqb i (9 + 3 * ft_k (nth (j / 3) o no_foot) + j mod 3) then 1 else 0).
Lemma nth_map_k o b : nth b (map ft_k o) (ft_k no_foot) = ft_k (nth b o no_foot).
Proof. apply map_nth. Qed.
Lemma leg_H_pick K o : (2 <= K)%nat -> (forall f, In f o -> (2 + ft_k f < K)%nat) -> NoDup (map ft_k o) -> leg_H K o *M pick K o = meye (3 * length o).
Proof.
  intros HK Ho HD. apply mat_ext; [reflexivity|reflexivity|]. intros i j Hi Hj. change (i < 3 * length o)%nat in Hi. change (j < 3 * length o)%nat in Hj.
  assert (i / 3 < length o)%nat as Di by (apply Nat.div_lt_upper_bound; lia). assert (j / 3 < length o)%nat as Dj by (apply Nat.div_lt_upper_bound; lia).
  pose proof (Nat.mod_upper_bound i 3 ltac:(lia)) as Ri. pose proof (Nat.mod_upper_bound j 3 ltac:(lia)) as Rj. pose proof (Nat.div_mod_eq i 3) as Ei. pose proof (Nat.div_mod_eq j 3) as Ej.
  pose proof (Ho _ (nth_In o no_foot Dj)) as Hk. rewrite ent_mult. change (nc (leg_H K o)) with (9 + 3 * K)%nat.
  rewrite (sum_delta' _ (9 + 3 * ft_k (nth (j / 3) o no_foot) + j mod 3)); [| |lia].
  - unfold leg_H, pick. rewrite !ent_mk by lia. rewrite ent_eye by lia. rewrite Nat.eqb_refl.
    destruct (Nat.eqb_spec i j) as [->|Hne]; [rewrite Nat.eqb_refl; ring|].
    destruct (Nat.eqb_spec (9 + 3 * ft_k (nth (j / 3) o no_foot) + j mod 3) (9 + 3 * ft_k (nth (i / 3) o no_foot) + i mod 3)) as [E|E].
    + exfalso. assert (ft_k (nth (j / 3) o no_foot) = ft_k (nth (i / 3) o no_foot)) as Ek by lia. rewrite <- !nth_map_k in Ek.
      rewrite NoDup_nth with (d := ft_k no_foot) in HD. rewrite map_length in HD. specialize (HD _ _ Dj Di Ek). lia.
    + destruct (Nat.eqb_spec (9 + 3 * ft_k (nth (j / 3) o no_foot) + j mod 3) (6 + i mod 3)); [lia|ring].
  - intros k Hk2 Hne. unfold pick. rewrite ent_mk by lia. destruct (Nat.eqb_spec k (9 + 3 * ft_k (nth (j / 3) o no_foot) + j mod 3)); [congruence|ring].
Qed.
Lemma leg_H_T K o b u : (b < length o)%nat -> (2 + ft_k (nth b o no_foot) < K)%nat ->
  mT (leg_H K o) *M embed (3 * length o) b u = embed (9 + 3 * K) (3 + ft_k (nth b o no_foot)) u -M embed (9 + 3 * K) 2 u.
Proof.
  intros Hb Hk. set (k := ft_k (nth b o no_foot)) in *. apply mat_ext; [reflexivity|reflexivity|]. intros i j Hi Hj. change (i < 9 + 3 * K)%nat in Hi. change (j < 1)%nat in Hj. assert (j = 0%nat) as -> by lia.
  rewrite ent_minus by mdim. rewrite ent_mult. change (nc (mT (leg_H K o))) with (3 * length o)%nat.
  rewrite (sum_block (3 * length o) b); [|lia|intros q Hq; rewrite (ent_embed_0 _ _ _ _ Hq); ring].
  pose proof (ent_embed (3 * length o) b u 0 ltac:(lia) ltac:(lia)) as E0. rewrite Nat.add_0_r in E0. rewrite E0, !ent_embed by lia. rewrite !ent_T.
  assert (forall r, (r < 3)%nat -> ent (leg_H K o) (3 * b + r) i = if Nat.eqb i (9 + 3 * k + r) then 1 else if Nat.eqb i (6 + r) then -1 else 0) as EH.
  { intros r Hr. unfold leg_H. rewrite ent_mk by lia. destruct (divmod3 b r Hr) as [-> ->]. reflexivity. }
  pose proof (EH 0%nat ltac:(lia)) as H0. rewrite !Nat.add_0_r in H0. rewrite H0, !EH by lia. clear H0 EH E0.
  destruct (lin_ex i) as (d & r & -> & Hr).
  destruct (Nat.eq_dec d 2) as [->|H2]; [|destruct (Nat.eq_dec d (3 + k)) as [->|H3]].
  - rewrite (ent_embed (9 + 3 * K) 2) by lia. rewrite ent_embed_0 by (rewrite div_lin by auto; lia).
    repeat (match goal with |- context [Nat.eqb ?a ?b] => destruct (Nat.eqb_spec a b) end); try lia; destruct r as [|[|[|]]]; try lia; ring.
  - rewrite (ent_embed (9 + 3 * K) (3 + k)) by lia. rewrite (ent_embed_0 _ 2) by (rewrite div_lin by auto; lia).
    repeat (match goal with |- context [Nat.eqb ?a ?b] => destruct (Nat.eqb_spec a b) end); try lia; destruct r as [|[|[|]]]; try lia; ring.
  - rewrite !ent_embed_0 by (rewrite div_lin by auto; lia).
    repeat (match goal with |- context [Nat.eqb ?a ?b] => destruct (Nat.eqb_spec a b) end); try lia; ring.
Qed.
Lemma bil_embed n b b' P u v : nr P = n -> nc P = n -> (3 * b + 3 <= n)%nat -> (3 * b' + 3 <= n)%nat ->
  sum n (fun j => sum n (fun i => ent (embed n b u) i 0 * ent P i j * ent (embed n b' v) j 0)) = vdot u (getM3 P (3 * b) (3 * b') *v v).
Proof.
  intros H1 H2 Hb Hb'. pose proof (ent_embed n b u 0 Hb ltac:(lia)) as E0. rewrite Nat.add_0_r in E0. pose proof (ent_embed n b u 1 Hb ltac:(lia)) as E1. pose proof (ent_embed n b u 2 Hb ltac:(lia)) as E2.
  pose proof (ent_embed n b' v 0 Hb' ltac:(lia)) as F0. rewrite Nat.add_0_r in F0. pose proof (ent_embed n b' v 1 Hb' ltac:(lia)) as F1. pose proof (ent_embed n b' v 2 Hb' ltac:(lia)) as F2.
  assert (forall j, sum n (fun i => ent (embed n b u) i 0 * ent P i j * ent (embed n b' v) j 0) =
     (vget u 0 * ent P (3 * b) j + vget u 1 * ent P (3 * b + 1) j + vget u 2 * ent P (3 * b + 2) j) * ent (embed n b' v) j 0) as HS.
  { intros j. rewrite (sum_block n b) by (auto; intros i Hi; rewrite (ent_embed_0 n b u i Hi); ring). rewrite E0, E1, E2. ring. }
  rewrite (sum_block n b'); [|exact Hb'|].
  - rewrite !HS, F0, F1, F2. unfold getM3, mmk, vdot. cbn [v0 v1 v2 mv]. rewrite !Nat.add_0_r. destruct u as [p q r], v as [p' q' r']. cbn. rewrite !Nat.add_0_r. ring.
  - intros i Hi. rewrite HS, (ent_embed_0 n b' v i Hi). ring.
Qed.
Lemma quad_diff n P b b' u : nr P = n -> nc P = n -> (3 * b + 3 <= n)%nat -> (3 * b' + 3 <= n)%nat -> quad P (embed n b u -M embed n b' u) = vdot u (diff_cov P b b' *v u).
Proof.
  intros H1 H2 Hb Hb'. rewrite quad_sum by (mdim; congruence). rewrite H1, H2.
  transitivity (sum n (fun j => sum n (fun i => ent (embed n b u) i 0 * ent P i j * ent (embed n b u) j 0)) - sum n (fun j => sum n (fun i => ent (embed n b u) i 0 * ent P i j * ent (embed n b' u) j 0))
    - sum n (fun j => sum n (fun i => ent (embed n b' u) i 0 * ent P i j * ent (embed n b u) j 0)) + sum n (fun j => sum n (fun i => ent (embed n b' u) i 0 * ent P i j * ent (embed n b' u) j 0))).
  - rewrite <- !sum_minus, <- sum_plus. apply sum_ext. intros j Hj. rewrite <- !sum_minus, <- sum_plus. apply sum_ext. intros i Hi.
    rewrite !ent_minus by mdim. ring.
  - rewrite !bil_embed by auto. unfold diff_cov. generalize (getM3 P (3 * b) (3 * b)) (getM3 P (3 * b) (3 * b')) (getM3 P (3 * b') (3 * b)) (getM3 P (3 * b') (3 * b')).
    intros A B C D. destruct A, B, C, D, u. unfold vdot. cbn. ring.
Qed.

Lemma contact_inj c h s ids i j k : tracks c h s ids -> contact_of c h i = Some k -> contact_of c h j = Some k -> i = j.
Proof.
  intros T Ei Ej. destruct (lc_map c i) as [x|] eqn:Xi; [|unfold contact_of in Ei; rewrite Xi in Ei; discriminate]. destruct (lc_map c j) as [y|] eqn:Xj; [|unfold contact_of in Ej; rewrite Xj in Ej; discriminate].
  destruct (tracks_contact _ _ _ _ _ _ T Xi) as (A1 & A2 & A3). destruct (tracks_contact _ _ _ _ _ _ T Xj) as (B1 & B2 & B3).
  rewrite Ei in A1. rewrite Ej in B1. injection A1 as A1. injection B1 as B1.
  pose proof (age_nth _ _ (tr_in _ _ _ _ T _ _ Xi)) as N1. pose proof (age_nth _ _ (tr_in _ _ _ _ T _ _ Xj)) as N2. rewrite <- A1 in N1. rewrite <- B1 in N2. rewrite N1 in N2. injection N2 as <-.
  eapply tr_inj; eauto.
Qed.
Lemma feet_nodup c h s ids : tracks c h s ids -> forall legs id, NoDup (map ft_k (feet c h id legs)).
Proof.
  intros T. induction legs as [|o legs IH]; intros id; cbn [feet]; [constructor|].
  destruct (lo_contact o); [|apply IH]. destruct (contact_of c h id) as [k|] eqn:Ek; [|apply IH]. cbn [app map ft_k]. constructor; [|apply IH].
  intros Hin. apply in_map_iff in Hin. destruct Hin as (f & Ef & Hf). destruct (LegHist.feet_in _ _ _ _ _ Hf) as (i & o' & H1 & _ & _ & H2 & _). rewrite Ef in H2.
  pose proof (contact_inj c h s ids _ _ _ T Ek H2). lia.
Qed.
Lemma feet_has c h : forall legs id i o k, nth_error legs i = Some o -> lo_contact o = true -> contact_of c h (id + i) = Some k -> In (mkFoot k (lo_pos o) (kin_cov c o)) (feet c h id legs).
Proof.
  induction legs as [|g legs IH]; intros id i o k Hn Hc Hk; [destruct i; discriminate|]. cbn [feet]. apply in_or_app. destruct i as [|i].
  - left. injection Hn as ->. rewrite Nat.add_0_r in Hk. rewrite Hc, Hk. left. reflexivity.
  - right. apply (IH (S id) i); auto. replace (S id + i)%nat with (id + S i)%nat by lia. exact Hk.
Qed.
Lemma cov_block_bdiag n f b : (b < n)%nat -> cov_block (bdiag n f) b = f b.
Proof. intros Hb. apply M3_ext. intros i j Hi Hj. unfold cov_block. rewrite mget_getM3 by lia. rewrite ent_bdiag by lia. rewrite Nat.eqb_refl. reflexivity. Qed.
Lemma corrected_rel c h m s ids s1 id o k : tracks c h s ids -> psd (sP s) -> leg_noise_ok c -> leg_corrected (2 + length ids) c h m s s1 ->
  nth_error (lm_legs m) id = Some o -> lo_contact o = true -> contact_of c h id = Some k ->
  m3_le (diff_cov (right_cov (2 + length ids) (lc_err c) s1) (3 + k) 2) (rot (sX s) *m kin_cov c o *m mtr (rot (sX s))).
Proof.
  intros T HP HN HC Ho Hc Hk. pose proof (tr_wf _ _ _ _ T) as [W HK _ _ _].
  assert (wf (2 + length ids) (set_time s (lm_t m))) as W' by (destruct W; split; auto).
  pose proof (feet_has c h (lm_legs m) 0 id o k Ho Hc Hk) as Hf. red in HC. cbv zeta in HC. set (fs := feet c h 0 (lm_legs m)) in *.
  destruct (Nat.eqb_spec (length fs) 0) as [E0|E0]; [destruct fs; [destruct Hf|discriminate]|].
  destruct (In_nth fs _ no_foot Hf) as (b & Hb & Eb).
  destruct (thm_right_group _ _ _ _ _ _ _ _ W' (leg_measurement _ _ _) HC) as [W2 _]. destruct (right_cov_dim _ (lc_err c) s1 W2) as [D1 D2].
  assert (forall f, In f fs -> (2 + ft_k f < 2 + length ids)%nat) as HR by (intros f Hff; eapply feet_range; eauto).
  pose proof (HR _ Hf) as Hkk. cbn [ft_k] in Hkk. assert (ft_k (nth b fs no_foot) = k) as Ekb by (rewrite Eb; reflexivity).
  intros u. rewrite <- (quad_diff (9 + 3 * (2 + length ids))) by (auto; lia).
  pose proof (leg_H_T (2 + length ids) fs b u Hb ltac:(rewrite Ekb; lia)) as ET. rewrite Ekb in ET. rewrite <- ET.
  replace (vdot u (rot (sX s) *m kin_cov c o *m mtr (rot (sX s)) *v u)) with (quad (leg_N (sX s) fs) (embed (3 * length fs) b u)).
  2:{ rewrite leg_N_bdiag. rewrite (quad_embed (3 * length fs)) by (reflexivity || lia). rewrite cov_block_bdiag by exact Hb. rewrite Eb. reflexivity. }
  eapply (correct_bound (2 + length ids) (3 * length fs) _ _ (leg_N (sX s) fs) _ _ _ (pick (2 + length ids) fs));
    [exact W'|apply leg_measurement|exact HP| |reflexivity|reflexivity| | |exact HC|reflexivity|reflexivity].
  - apply pd_psd, leg_N_pd; [apply W|apply HN].
  - apply leg_H_pick; [exact HK|exact HR|]. eapply feet_nodup; eauto.
  - intros i j Hj. unfold leg_H. rewrite ent_mk_if. destruct (inr _ _ _ _) eqn:Ei; [|reflexivity]. unfold inr in Ei. apply andb_prop in Ei. destruct Ei as [Ei Ej]. apply Nat.ltb_lt in Ei, Ej.
    assert (i / 3 < length fs)%nat as Di by (apply Nat.div_lt_upper_bound; lia). pose proof (HR _ (nth_In fs no_foot Di)). pose proof (Nat.mod_upper_bound i 3 ltac:(lia)).
    destruct (Nat.eqb_spec j (9 + 3 * ft_k (nth (i / 3) fs no_foot) + i mod 3)); [lia|]. destruct (Nat.eqb_spec j (6 + i mod 3)); [lia|reflexivity].
Qed.
Lemma m3_le_eq A B : A = B -> m3_le A B. Proof. intros -> u. lra. Qed.
(** the relative covariance by name *)
Lemma mget_ms x M i j : mget (x *ms M) i j = x * mget M i j.
Proof. destruct M, i as [|[|[|i]]], j as [|[|[|j]]]; cbn; ring. Qed.
Lemma diff_named c h s id k : contact_of c h id = Some k -> diff_cov (sP s) (3 + k) 2 =
  mmk (fun a b => pcov c h s (Leg id a) (Leg id b) - pcov c h s (Leg id a) (Core (6 + b)) - pcov c h s (Core (6 + a)) (Leg id b) + pcov c h s (Core (6 + a)) (Core (6 + b))).
Proof.
  intros Hk. apply M3_ext. intros a b Ha Hb. rewrite mget_mk by auto. unfold diff_cov. rewrite !mget_add, !mget_ms, !mget_getM3 by lia. unfold pcov, row. rewrite Hk.
  destruct (Nat.ltb_spec a 3); [|lia]. destruct (Nat.ltb_spec b 3); [|lia]. destruct (Nat.ltb_spec (6 + a) 9); [|lia]. destruct (Nat.ltb_spec (6 + b) 9); [|lia].
  replace (3 * (3 + k) + a)%nat with (9 + 3 * k + a)%nat by lia. replace (3 * (3 + k) + b)%nat with (9 + 3 * k + b)%nat by lia. change (3 * 2)%nat with 6%nat. ring.
Qed.

(** in the right-invariant convention *)
Lemma leg_update_bound c h m s ids c' h' s' id o : tracks c h s ids -> psd (sP s) -> leg_noise_ok c -> lc_err c = RightInvariant ->
  leg_update c h m s = Ok (c', h', s') -> nth_error (lm_legs m) id = Some o -> lo_contact o = true ->
  exists k, contact_of c' h' id = Some k /\
    ((tracked c id /\ m3_le (diff_cov (sP s') (3 + k) 2) (rot (sX s) *m kin_cov c o *m mtr (rot (sX s)))) \/
     (~ tracked c id /\ diff_cov (sP s') (3 + k) 2 = rot (sX s') *m kin_cov c o *m mtr (rot (sX s')))).
Proof.
  intros T HP HN He E Ho Hc. destruct (leg_update_inv _ _ _ _ _ _ _ _ T E) as (s1 & ids' & m' & Ec & HC & HB & T' & _).
  assert (tracked c' id) as Ht by (apply (lb_tracked _ _ _ _ _ _ _ HB); red; rewrite Ho; exact Hc).
  assert (forall cc hh ss ii, tracks cc hh ss ii -> tracked cc id -> exists k, contact_of cc hh id = Some k) as HK.
  { intros cc hh ss ii TT Hx. red in Hx. destruct (lc_map cc id) as [x|] eqn:Ex; [|contradiction]. destruct (tracks_contact _ _ _ _ _ _ TT Ex) as (A & _). eauto. }
  destruct (HK _ _ _ _ T' Ht) as [k Hk]. exists k. split; [exact Hk|].
  destruct (lc_map c id) as [x|] eqn:Ex.
  - left. assert (tracked c id) as Ht0 by (red; congruence). split; [exact Ht0|]. destruct (HK _ _ _ _ T Ht0) as [k0 Hk0].
    replace (diff_cov (sP s') (3 + k) 2) with (diff_cov (sP s1) (3 + k0) 2).
    + pose proof (corrected_rel c h m s ids s1 id o k0 T HP HN HC Ho Hc Hk0) as B. rewrite He in B. exact B.
    + rewrite (diff_named c h s1 id k0 Hk0), (diff_named c' h' s' id k Hk). apply M3_ext. intros a b Ha Hb. rewrite !mget_mk by auto.
      destruct (lb_kept _ _ _ _ _ _ _ HB) as [_ CV]. rewrite !CV; try reflexivity; cbn [slot_leg]; intros i [= <-]; auto.
  - right. assert (~ tracked c id) as Ht0 by (unfold tracked; intros H; apply H; exact Ex). split; [exact Ht0|].
    destruct (lb_new _ _ _ _ _ _ _ HB id o Ho Hc Ht0) as (_ & N1 & N2). rewrite He in N1, N2. rewrite (diff_named c' h' s' id k Hk).
    apply M3_ext. intros a b Ha Hb. rewrite mget_mk by auto. rewrite N2 by auto.
    rewrite (proj1 (N1 a (Core (6 + b)) Ha ltac:(discriminate))). rewrite (proj2 (N1 b (Core (6 + a)) Hb ltac:(discriminate))). cbn [foot_error foot_noise]. unfold foot_error. cbn [foot_noise]. ring.
Qed.
Lemma foot_cov_K e s K k : wf K s -> foot_cov e s k = diff_cov (right_cov K e s) (3 + k) 2.
Proof. intros [[X1 X2 _ _] _ _ _ _]. unfold foot_cov. rewrite X2. replace (3 + K - 3)%nat with K by lia. reflexivity. Qed.
Lemma vel_cov_K e s K : wf K s -> velocity_cov e s = cov_block (right_cov K e s) 1.
Proof. intros [[X1 X2 _ _] _ _ _ _]. unfold velocity_cov. rewrite X2. replace (3 + K - 3)%nat with K by lia. reflexivity. Qed.
(** what holds of a foot reported in contact by the measurement m that has been used *)
Lemma leg_Correct_bound_right c h s ids sched c' h' s' : tracks c h s ids -> psd (sP s) -> leg_noise_ok c -> lc_err c = RightInvariant ->
  leg_Correct c h s sched = Ok (true, c', h', s') ->
  exists m, first_fresh (lc_thr c) (stprop s) (lc_queue c ++ concat sched) = Some m /\ st s' = Some (lm_t m) /\ (exists ids', tracks c' h' s' ids') /\ forall id o, nth_error (lm_legs m) id = Some o -> lo_contact o = true ->
  exists k, contact_of c' h' id = Some k /\
    ((tracked c id /\ m3_le (diff_cov (sP s') (3 + k) 2) (rot (sX s) *m kin_cov c o *m mtr (rot (sX s)))) \/
     (~ tracked c id /\ diff_cov (sP s') (3 + k) 2 = rot (sX s') *m kin_cov c o *m mtr (rot (sX s')))).
Proof.
  intros T HP HN He E. destruct (leg_Correct_spec _ _ _ _ _ _ _ _ E) as (f & F1 & F2 & F3 & G). destruct (f_used f) as [m|] eqn:Ef; [|destruct G; discriminate].
  destruct G as [_ (q & E1 & _)]. exists m. split.
  { destruct (F2 m) as [tp Etp]. { unfold consumed. rewrite Ef. apply in_app_iff. right. left; auto. }
    destruct (F3 tp Etp) as [G1 G2]. unfold first_fresh. rewrite Etp, F1. rewrite (fate_first (lc_thr c) tp f _ G1) with (m := m) by (auto; rewrite Ef; auto). reflexivity. }
  destruct (leg_update_inv _ _ _ _ _ _ _ _ (tracks_queue c q h s ids T) E1) as (s1 & ids' & m' & Ec & HC & HB & T' & M & _).
  split. { destruct (lb_time _ _ _ _ _ _ _ HB) as [-> _]. destruct M as (_ & _ & M & _). rewrite M. reflexivity. }
  split; [eauto|]. intros id o Ho Hc. exact (leg_update_bound (lc_set_queue c q) h m s ids c' h' s' id o (tracks_queue c q h s ids T) HP HN He E1 Ho Hc).
Qed.

Lemma thm_leg_bound c h s ids sched c' h' s' : tracks c h s ids -> psd (sP s) -> leg_noise_ok c -> leg_Correct c h s sched = Ok (true, c', h', s') ->
  exists m, first_fresh (lc_thr c) (stprop s) (lc_queue c ++ concat sched) = Some m /\ st s' = Some (lm_t m) /\ forall id o, nth_error (lm_legs m) id = Some o -> lo_contact o = true ->
  exists k, contact_of c' h' id = Some k /\
    ((tracked c id /\ m3_le (foot_cov (lc_err c) s' k) (rot (sX s) *m kin_cov c o *m mtr (rot (sX s)))) \/
     (~ tracked c id /\ foot_cov (lc_err c) s' k = rot (sX s') *m kin_cov c o *m mtr (rot (sX s')))).
Proof.
  intros T HP HN E. destruct (lc_err c) eqn:He.
  - assert (psd (sP (in_right s))) as HP2.
    { unfold in_right, as_right. cbn [sP set_P]. apply psd_conj; [|exact HP]. rewrite nc_L2R. destruct (wp_wf _ _ (tr_wf _ _ _ _ T)) as [[_ X2 _ _] _ _ P1 _]. unfold dimX. rewrite X2, P1. lia. }
    pose proof (leg_Correct_conv c h s ids sched T HP HN He) as EC. rewrite E in EC. cbn [rmap] in EC.
    destruct (leg_Correct_bound_right (lc_with c RightInvariant) h (in_right s) ids sched _ _ _ (tracks_with _ _ _ _ _ (tracks_conv _ _ _ _ T)) HP2 HN eq_refl EC) as (m & M1 & M2 & (ids' & T') & M3).
    exists m. split; [exact M1|]. split; [exact M2|]. intros id o Ho Hc. destruct (M3 id o Ho Hc) as (k & Hk & B). exists k. split; [exact Hk|]. exact B.
  - destruct (leg_Correct_bound_right c h s ids sched _ _ _ T HP HN He E) as (m & M1 & M2 & (ids' & T') & M3).
    exists m. split; [exact M1|]. split; [exact M2|]. intros id o Ho Hc. destruct (M3 id o Ho Hc) as (k & Hk & B). exists k. split; [exact Hk|]. exact B.
Qed.
(** in terms of the specification's names *)
Lemma thm_velocity_bound K c s sched c' s' : wfp K s -> psd (sP s) -> vel_noise_ok c -> vel_Correct c s sched = Ok (true, c', s') ->
  m3_le (velocity_cov (vc_err c) s') (rot (sX s) *m vc_cov c *m mtr (rot (sX s))).
Proof.
  intros W HP HN E. rewrite (vel_cov_K _ s' K); [apply (thm_vel_bound K c s sched c'); auto|].
  destruct (vel_Correct_meta _ _ _ _ _ _ _ W E) as ([W1 _ _ _ _] & _). exact W1.
Qed.
Lemma thm_foot_bound n c h s last sched c' h' s' : leg_reach n c h s last -> psd (sP s) -> leg_noise_ok c -> leg_Correct c h s sched = Ok (true, c', h', s') ->
  exists m, first_fresh (lc_thr c) (stprop s) (lc_queue c ++ concat sched) = Some m /\ st s' = Some (lm_t m) /\ forall id o, nth_error (lm_legs m) id = Some o -> lo_contact o = true ->
  exists k, contact_of c' h' id = Some k /\
    ((tracked c id /\ m3_le (foot_cov (lc_err c) s' k) (rot (sX s) *m kin_cov c o *m mtr (rot (sX s)))) \/
     (~ tracked c id /\ foot_cov (lc_err c) s' k = rot (sX s') *m kin_cov c o *m mtr (rot (sX s')))).
Proof.
  intros H. destruct (leg_reach_tracks _ _ _ _ _ H) as (_ & (ids & T) & _). exact (thm_leg_bound c h s ids sched c' h' s' T).
Qed.
