(** Proofs: C76 for reachable estimators; what the floor says about published covariances. *)
From Coq Require Import Reals ZArith List Bool Arith Lia Lra.
From Verif Require Import Res Vec3 Mat MatInv Psd Spec LieGroup LieSO3 LieSEK RobotState StateProofs StateHist Inekf SpecFilter InekfProofs InekfThms Blk Imu Propagation SpecProp
  PropagationProofs PropagationThms PropagationLog ImuRest ImuThms ImuNeg Queue VelCorr LegCorr SpecCorr VelThms PsdBlk LegThms LegAdd LegLoop LegUpd LegHist Estimator SpecEst EstInv EstSafe EstPub EstHist EstTime
  ConvLeg ConvFilter ConvEst ClearThms SpecObs Obs ObsEst.
Import ListNotations.
Local Open Scope R_scope.

(** ** from any moment of a reachable run on *)
Lemma thm_unobservable f os1 os2 e1 e2 : reachable f (os1 ++ os2) e2 -> est_run (build f) os1 = Ok e1 -> e_enabled e1 = true -> ~ In OClear os2 ->
  forall w a c, uncertain (f_err f) (e_state e1) w a c -> uncertain (f_err f) (e_state e2) w a c.
Proof.
  intros (HC & HS & HP & ER) E1 He HN w a c F. pose proof (build_ok f _ HC HS) as HB.
  destruct (run_prefix os1 os2 _ _ HB HP E1) as [H1 P1].
  assert (est_run e1 os2 = Ok e2) as E2. { unfold est_run in *. rewrite foldM_app, E1 in ER. exact ER. }
  assert (err_is (f_err f) e1) as HR.
  { clear -E1. pose proof (err_build f) as H0. revert H0 E1. generalize (build f). induction os1 as [|o os IH]; intros e H E; [injection E as <-; exact H|].
    cbn [est_run foldM] in E. destruct (est_step e o) as [e'|] eqn:Eo; [|discriminate]. cbn [bind] in E. apply (IH e'); [eapply err_step; eauto|exact E]. }
  exact (proj2 (run_unc w a c _ os2 e1 e2 H1 HR P1 HN E2 He F)).
Qed.

(** ** reading off one block *)
Definition embed (n b : nat) (u : V3) : mat := mk n 1 (fun i _ => if Nat.eqb (i / 3) b then vget u (i mod 3) else 0).
Lemma nr_embed n b u : nr (embed n b u) = n. Proof. reflexivity. Qed.
Lemma nc_embed n b u : nc (embed n b u) = 1%nat. Proof. reflexivity. Qed.
Global Hint Rewrite nr_embed nc_embed : mdims.
Lemma ent_embed n b u r : (3 * b + 3 <= n)%nat -> (r < 3)%nat -> ent (embed n b u) (3 * b + r) 0 = vget u r.
Proof. intros Hb Hr. unfold embed. rewrite ent_mk by lia. destruct (divmod3 b r Hr) as [-> ->]. rewrite Nat.eqb_refl. reflexivity. Qed.
Lemma ent_embed_0 n b u i : (i / 3 <> b)%nat -> ent (embed n b u) i 0 = 0.
Proof. intros H. unfold embed. rewrite ent_mk_if. destruct (inr _ _ _ _); [|reflexivity]. destruct (Nat.eqb_spec (i / 3) b); [congruence|reflexivity]. Qed.
Lemma sum_block n b g : (3 * b + 3 <= n)%nat -> (forall i, (i / 3 <> b)%nat -> g i = 0) -> sum n g = g (3 * b)%nat + g (3 * b + 1)%nat + g (3 * b + 2)%nat.
Proof.
  intros Hb H. replace n with (3 * b + (3 + (n - 3 * b - 3)))%nat by lia. rewrite sum_app, sum_app. rewrite (sum_zero (3 * b)), (sum_zero (n - 3 * b - 3)).
  - cbn [sum]. rewrite Nat.add_0_r. ring.
  - intros k Hk. apply H. replace (3 * b + (3 + k))%nat with (3 + k + b * 3)%nat by lia. rewrite Nat.div_add by lia. pose proof (Nat.div_str_pos (3 + k) 3 ltac:(lia)). lia.
  - intros k Hk. apply H. intros E. pose proof (Nat.div_lt_upper_bound k 3 b ltac:(lia) Hk). lia.
Qed.
Lemma quad_embed n b P u : nr P = n -> nc P = n -> (3 * b + 3 <= n)%nat -> quad P (embed n b u) = vdot u (cov_block P b *v u).
Proof.
  intros H1 H2 Hb. rewrite quad_sum by (mdim; congruence). rewrite H1, H2.
  pose proof (ent_embed n b u 0 Hb ltac:(lia)) as E0. rewrite Nat.add_0_r in E0. pose proof (ent_embed n b u 1 Hb ltac:(lia)) as E1. pose proof (ent_embed n b u 2 Hb ltac:(lia)) as E2.
  assert (forall j, sum n (fun i => ent (embed n b u) i 0 * ent P i j * ent (embed n b u) j 0) =
     (vget u 0 * ent P (3 * b) j + vget u 1 * ent P (3 * b + 1) j + vget u 2 * ent P (3 * b + 2) j) * ent (embed n b u) j 0) as HS.
  { intros j. rewrite (sum_block n b) by (auto; intros i Hi; rewrite (ent_embed_0 n b u i Hi); ring). rewrite E0, E1, E2. ring. }
  rewrite (sum_block n b); [|exact Hb|].
  - rewrite !HS, E0, E1, E2. unfold cov_block, getM3, mmk, vdot. destruct u; cbn. rewrite !Nat.add_0_r. ring.
  - intros i Hi. rewrite HS, (ent_embed_0 n b u i Hi). ring.
Qed.
Lemma along_embed n b N u : nr N = n -> (3 * b + 3 <= n)%nat -> along N (embed n b u) = vdot (getV3 N (3 * b) 0) u.
Proof.
  intros H1 Hb. unfold along. rewrite ent_mult. change (nc (mT N)) with (nr N). rewrite H1.
  rewrite (sum_block n b) by (auto; intros i Hi; rewrite (ent_embed_0 n b u i Hi); ring). rewrite !ent_T.
  pose proof (ent_embed n b u 0 Hb ltac:(lia)) as E0. rewrite Nat.add_0_r in E0. rewrite E0, !ent_embed by lia.
  unfold vdot, getV3, vmk. cbn [v0 v1 v2 vget]. rewrite !Nat.add_0_r. destruct u as [p q r]; cbn [v0 v1 v2 vget]. ring.
Qed.

(** ** position and heading *)
Lemma quad_nonneg n P : nr P = n -> psd P -> forall x, nr x = n -> nc x = 1%nat -> 0 <= quad P x.
Proof. intros Hn [_ H] x H1 H2. apply H; congruence. Qed.
Lemma pos_of_move K w a : (2 <= K)%nat -> getV3 (world_move K w a) 6 0 = a.
Proof.
  intros HK. pose proof (move_pos K w a 1) as M. apply V3_ext. intros r Hr. unfold getV3. rewrite vget_mk by lia. replace (6 + r)%nat with (3 + 3 * 1 + r)%nat by lia. apply M; lia.
Qed.
Lemma rot_of_move K w a : getV3 (world_move K w a) 0 0 = mkV 0 0 w.
Proof. apply V3_ext. intros r Hr. unfold getV3. rewrite vget_mk by lia. unfold world_move. rewrite ent_mk by lia. destruct r as [|[|[|]]]; try lia; reflexivity. Qed.
(** left-invariant errors are the same movement seen from the body *)
Lemma move_left K X w a : (2 <= K)%nat -> SEK K X -> getV3 (L2R K (sekinv K X) *M world_move K w a) 0 0 = mtr (rot X) *v mkV 0 0 w /\
  (w = 0 -> getV3 (L2R K (sekinv K X) *M world_move K w a) 6 0 = mtr (rot X) *v a).
Proof.
  intros HK HX. assert (rot (sekinv K X) = mtr (rot X)) as ER by (unfold sekinv; apply rot_aff).
  assert (forall i, (i < 9 + 3 * K)%nat -> ent (L2R K (sekinv K X) *M world_move K w a) i 0 = rowL K (sekinv K X) i (fun k => ent (world_move K w a) k 0)) as EE.
  { intros i Hi. rewrite ent_mult. change (nc (L2R K (sekinv K X))) with (9 + 3 * K)%nat. apply row_L. exact Hi. }
  pose proof (rot_of_move K w a) as M0. pose proof (pos_of_move K w a HK) as M1. unfold getV3, vmk in M0, M1. assert (ent (world_move K w a) 0 0 = 0 /\ ent (world_move K w a) 1 0 = 0 /\ ent (world_move K w a) 2 0 = w) as (A0 & A1 & A2) by (repeat split).
  assert (ent (world_move K w a) 6 0 = v0 a /\ ent (world_move K w a) 7 0 = v1 a /\ ent (world_move K w a) 8 0 = v2 a) as (B0 & B1 & B2) by (split; [|split]; [exact (f_equal v0 M1)|exact (f_equal v1 M1)|exact (f_equal v2 M1)]).
  split; [|intros ->]; apply V3_ext; intros r Hr; unfold getV3; rewrite vget_mk by lia; rewrite EE by lia; unfold rowL.
  - destruct (Nat.ltb_spec (0 + r) (3 + 3 * K)); [|lia]. destruct (Nat.ltb_spec (0 + r) 3); [|lia]. cbn [Nat.add]. rewrite Nat.mod_small, Nat.div_small by lia. unfold m3row. cbn [Nat.mul Nat.add].
    rewrite A0, A1, A2, ER. destruct r as [|[|[|]]]; try lia; destruct (rot X); cbn; ring.
  - destruct (Nat.ltb_spec (6 + r) (3 + 3 * K)); [|lia]. destruct (Nat.ltb_spec (6 + r) 3); [lia|].
    replace (6 + r)%nat with (3 * 2 + r)%nat by lia. destruct (divmod3 2 r Hr) as [-> ->]. unfold m3row. cbn [Nat.mul Nat.add].
    rewrite A0, A1, A2, B0, B1, B2, ER. destruct r as [|[|[|]]]; try lia; destruct (rot X); cbn; ring.
Qed.
(** the covariance of the stored error, in its own convention *)
Lemma floor_left K s N c : wf K s -> nr N = (9 + 3 * K)%nat -> nc N = 1%nat -> variance_floor (right_cov K LeftInvariant s) N c -> variance_floor (sP s) (L2R K (sekinv K (sX s)) *M N) c.
Proof.
  intros W N1 N2 F. destruct W as [HX _ _ P1 P2].
  assert (sP s = L2R K (sekinv K (sX s)) *M right_cov K LeftInvariant s *M mT (L2R K (sekinv K (sX s)))) as E.
  { cbn [right_cov]. rewrite !L2R_AdB. pose proof (AdB_inv K _ HX) as (_ & _ & _ & _ & _ & I2).
    set (A := AdB K (sX s)) in *. set (B := AdB K (sekinv K (sX s))) in *.
    assert (nr A = (9 + 3 * K)%nat /\ nc A = (9 + 3 * K)%nat /\ nr B = (9 + 3 * K)%nat /\ nc B = (9 + 3 * K)%nat) as (a1 & a2 & b1 & b2) by (repeat split).
    replace (B *M (A *M sP s *M mT A) *M mT B) with ((B *M A) *M sP s *M mT (B *M A)).
    - rewrite I2. rewrite mmult_eye_l by mdim. rewrite mT_eye. rewrite mmult_eye_r by mdim. reflexivity.
    - rewrite mT_mult by mdim. rewrite !mmult_assoc by mdim. reflexivity. }
  rewrite E. apply floor_conj; [cbn [right_cov]; mdim|cbn [right_cov]; mdim|cbn [right_cov]; mdim|exact N2|exact F].
Qed.

(** ** initialisation *)
Lemma along_2 w a y : nr y = 15%nat -> along (world_move 2 w a) y = w * ent y 2 0 + vdot a (getV3 y 6 0).
Proof.
  intros Hy. unfold along. rewrite ent_mult. change (nc (mT (world_move 2 w a))) with 15%nat. cbn [sum]. rewrite !ent_T.
  unfold world_move. rewrite !ent_mk by lia. unfold vdot, getV3, vmk. cbn [v0 v1 v2]. cbn -[ent]. ring.
Qed.
Definition fits (r p w : R) (a : V3) (c : R) : Prop := forall x u, c * (w * x + vdot a u) ^ 2 <= r * x ^ 2 + p * vdot u u.
Lemma quad_ms k u : vdot u (k *ms mid *v u) = k * vdot u u.
Proof. destruct u; unfold vdot; cbn; ring. Qed.
Lemma start_right r v p bg ba w a c : 0 <= r -> 0 <= v -> psd (ofM3 bg) -> psd (ofM3 ba) -> fits r p w a c ->
  variance_floor (bdiag 5 (init_blocks r v p bg ba)) (world_move 2 w a) c.
Proof.
  intros Hr Hv Hbg Hba HF y H1 H2. change (nr (bdiag 5 (init_blocks r v p bg ba))) with 15%nat in H1. rewrite along_2, quad_bdiag by auto.
  cbn [sum init_blocks]. change (3 * 0)%nat with 0%nat. change (3 * 1)%nat with 3%nat. change (3 * 2)%nat with 6%nat. rewrite !quad_ms.
  assert (0 <= vdot (getV3 y 3 0) (getV3 y 3 0)) as V by (unfold vdot; nra).
  assert (forall M u, psd (ofM3 M) -> 0 <= vdot u (M *v u)) as HM. { intros M u [_ H]. specialize (H (ofV3 u) eq_refl eq_refl). rewrite quad3 in H. exact H. }
  pose proof (HM _ (getV3 y (3 * 3) 0) Hbg) as B1. pose proof (HM _ (getV3 y (3 * 4) 0) Hba) as B2. specialize (HF (ent y 2 0) (getV3 y 6 0)).
  assert (r * ent y 2 0 ^ 2 <= r * vdot (getV3 y 0 0) (getV3 y 0 0)). { apply Rmult_le_compat_l; [exact Hr|]. unfold vdot, getV3, vmk. cbn [v0 v1 v2 Nat.add]. nra. }
  assert (0 <= v * vdot (getV3 y 3 0) (getV3 y 3 0)) by (apply Rmult_le_pos; auto). lra.
Qed.
Lemma move_left_2 X a : SEK 2 X -> L2R 2 (sekinv 2 X) *M world_move 2 0 a = world_move 2 0 (mtr (rot X) *v a).
Proof.
  intros HX. destruct (move_left 2 X 0 a ltac:(lia) HX) as [M0 M1]. specialize (M1 eq_refl).
  apply mat_ext; [reflexivity|reflexivity|]. intros i j Hi Hj. change (i < 15)%nat in Hi. change (j < 1)%nat in Hj. assert (j = 0%nat) as -> by lia.
  assert (forall r, (r < 3)%nat -> ent (L2R 2 (sekinv 2 X) *M world_move 2 0 a) (6 + r) 0 = ent (world_move 2 0 (mtr (rot X) *v a)) (6 + r) 0) as EP.
  { intros r Hr. replace (6 + r)%nat with (3 + 3 * 1 + r)%nat at 2 by lia. rewrite move_pos by lia. rewrite <- M1. unfold getV3. rewrite vget_mk by lia. reflexivity. }
  destruct (Nat.lt_ge_cases i 6); [|destruct (Nat.lt_ge_cases i 9) as [|]].
  2:{ specialize (EP (i - 6)%nat ltac:(lia)). replace (6 + (i - 6))%nat with i in EP by lia. exact EP. }
  all: rewrite ent_mult; change (nc (L2R 2 (sekinv 2 X))) with (9 + 3 * 2)%nat; rewrite row_L by lia; unfold rowL.
  - destruct (Nat.ltb_spec i (3 + 3 * 2)); [|lia].
    assert (forall k, (k < 6)%nat -> forall b, ent (world_move 2 0 b) k 0 = 0) as Z.
    { intros k Hk b. unfold world_move. rewrite ent_mk by lia. destruct (Nat.ltb_spec k 6); [|lia]. destruct (Nat.eqb k 2); reflexivity. }
    assert (3 * (i / 3) + 2 < 6)%nat as Hq. { pose proof (Nat.div_lt_upper_bound i 3 2 ltac:(lia) ltac:(lia)). lia. }
    unfold m3row. rewrite !Z by lia. destruct (i <? 3)%nat; ring.
  - destruct (Nat.ltb_spec i (3 + 3 * 2)); [lia|]. rewrite !move_bias by lia. reflexivity.
Qed.
Lemma start_unc er s r v p bg ba w a c : wf 2 s -> sP s = bdiag 5 (init_blocks r v p bg ba) -> 0 <= r -> 0 <= v -> psd (ofM3 bg) -> psd (ofM3 ba) -> fits r p w a c ->
  er = RightInvariant \/ w = 0 -> uncertain er s w a c.
Proof.
  intros W EP Hr Hv Hbg Hba HF HE. apply (unc_K w a c 2 _ _ W). destruct er.
  2:{ cbn [right_cov]. rewrite EP. apply start_right; auto. }
  destruct HE as [HE| ->]; [discriminate|]. pose proof (wf_X _ _ W) as HX. pose proof (SEK_SO3 2 _ HX) as [HR _].
  assert (L2R 2 (sX s) *M (L2R 2 (sekinv 2 (sX s)) *M world_move 2 0 a) = world_move 2 0 a) as EN.
  { rewrite mmult_assoc by mdim. rewrite !L2R_AdB. destruct (AdB_inv 2 _ HX) as (_ & _ & _ & _ & -> & _). apply mmult_eye_l. reflexivity. }
  rewrite <- EN. cbn [right_cov]. destruct W as [_ _ _ P1 P2]. apply floor_conj; [mdim|congruence|mdim|reflexivity|].
  rewrite move_left_2 by exact HX. rewrite EP. apply start_right; auto. intros x u. specialize (HF x (rot (sX s) *v u)).
  replace (vdot (mtr (rot (sX s)) *v a) u) with (vdot a (rot (sX s) *v u)) by (destruct (rot (sX s)), a, u; unfold vdot; cbn; ring).
  replace (vdot u u) with (vdot (rot (sX s) *v u) (rot (sX s) *v u)); [exact HF|].
  replace (vdot (rot (sX s) *v u) (rot (sX s) *v u)) with (vdot u (mtr (rot (sX s)) *m rot (sX s) *v u)) by (destruct (rot (sX s)), u; unfold vdot; cbn; ring).
  rewrite HR. destruct u; unfold vdot; cbn; ring.
Qed.

(** ** every estimate of every history *)
Section Published.
Variables (er : error_type) (r p w : R) (a : V3) (c : R).
Hypotheses (HF : fits r p w a c) (HE : er = RightInvariant \/ w = 0).
Definition good (e : est) : Prop := err_is er e /\ e_rot_cov e = r /\ e_pos_cov e = p /\ (e_enabled e = true -> uncertain er (e_state e) w a c).
Lemma step_good fut e o e' : est_ok (op_imu o ++ fut) e -> allowed e o -> est_step e o = Ok e' -> good e ->
  good e' /\ (step_pub is_filter_op e o e' = [] \/ step_pub is_filter_op e o e' = [e_state e'] /\ e_enabled e' = true /\ uncertain er (e_state e') w a c).
Proof.
  intros HO HA E (G1 & G2 & G3 & G4). destruct (step_fixed _ _ _ E) as (FX & _ & _). unfold e_fixed in FX. injection FX as _ _ _ _ F1 _ F3 _.
  assert ((e_enabled e' = true -> uncertain er (e_state e') w a c) /\ (step_pub is_filter_op e o e' = [] \/ step_pub is_filter_op e o e' = [e_state e'] /\ e_enabled e' = true /\ uncertain er (e_state e') w a c)) as [H1 H2].
  2:{ split; [|exact H2]. split; [eapply err_step; eauto|]. split; [congruence|]. split; [congruence|exact H1]. }
  pose proof (enabled_step _ _ _ E) as ES. destruct o; try (destruct ES as [ES1 ES2]; rewrite ES1, ES2; split; [exact G4|left; reflexivity]).
  - (* InitState *) cbn [op_imu app est_step allowed] in *. destruct HA as [HA _]. destruct (ok_prop _ _ HO) as (ip & Hip & (N1 & N2 & N3 & N4) & _).
    pose proof (InitState_spec fut e l ip e' HO HA Hip E) as H. destruct (ip_queue ip) as [|m q].
    + subst e'. cbn [e_enabled e_set_corrs e_set]. split; [congruence|]. left. unfold step_pub. cbn. apply skipn_len.
    + destruct H as (us & T & A1 & A2 & A3 & A4 & A5 & A6 & A7 & A8 & A9 & A10 & A11 & A12 & A13). destruct (ok_cov _ _ HO) as (C1 & C2 & C3).
      assert (uncertain er (e_state e') w a c) as U.
      { eapply start_unc; [apply A6|exact A12|exact C1|exact C2| | |rewrite G2, G3; exact HF|exact HE]; assumption. }
      split; [auto|]. right. split; [|auto]. unfold step_pub. cbn [is_filter_op]. rewrite A3, skipn_app_len. reflexivity.
  - (* RunOnce *) cbn [op_imu app est_step allowed] in *. destruct (RunOnce_spec fut e l HO HA) as (e1 & fs & b & tp & A1 & A2 & A3 & A4 & A5 & A6 & A7 & A8 & A9 & _).
    rewrite E in A1. injection A1 as <-. pose proof (run_once_unc w a c er fut e l e' HO G1 HA E (G4 HA)) as U.
    split; [auto|]. unfold step_pub. cbn [is_filter_op]. rewrite A7, skipn_app_len. destruct b; [right; auto|left; reflexivity].
  - (* Clear *) cbn [est_step] in E. unfold Clear in E. destruct (e_prop e) as [ip|]; [|discriminate]. cbn in E. split; [|left; reflexivity].
    destruct (e_logger e); [destruct (e_names e)|]; injection E as <-; cbn; discriminate.
Qed.
Lemma run_good : forall os e, est_ok (imus os) e -> protocol e os -> good e ->
  Forall (fun s => (exists K, wfp K s) /\ uncertain er s w a c) (published is_filter_op e os) /\ (forall e', est_run e os = Ok e' -> good e').
Proof.
  induction os as [|o os IH]; intros e HO HP HG; cbn [published]; [split; [constructor|]; intros e' [= <-]; exact HG|].
  rewrite imus_cons in HO. destruct HP as [HA HP]. cbn [est_run foldM].
  destruct (step_safe _ _ _ HO HA) as [(e1 & E & HO1)|[E _]]; rewrite E; [|split; [constructor|discriminate]].
  destruct (step_good _ _ _ _ HO HA E HG) as [HG1 HU]. destruct (IH e1 HO1 (HP _ E) HG1) as [I1 I2]. split; [|exact I2].
  fold (step_pub is_filter_op e o e1). destruct HU as [->|(-> & He & HU)]; cbn [app]; [exact I1|constructor; [|exact I1]]. split; [|exact HU].
  destruct (on_sound _ _ HO1 He) as (n & t & Hw & _). eauto.
Qed.
End Published.


Lemma build_good f : forall w a c, good (f_err f) (sq_or (k_rot (f_est f)) (3 / 100)) (sq_or (k_pos (f_est f)) (1 / 100000)) w a c (build f).
Proof. intros w a c. split; [apply err_build|]. rewrite build_eq. split; [reflexivity|]. split; [reflexivity|]. discriminate. Qed.
(** reading off the position block in either convention *)
Lemma read_pos K e s p : wfp K s -> (forall a c, c * vdot a a <= p -> 0 <= c -> uncertain e s 0 a c) -> 0 <= p -> m3_le (p *ms mid) (cov_block (sP s) 2).
Proof.
  intros W H Hp u. pose proof (wp_K _ _ W) as HK. pose proof (wp_wf _ _ W) as W0. pose proof (wf_X _ _ W0) as HX. pose proof (SEK_SO3 _ _ HX) as [HR HR2]. pose proof (wf_Pr _ _ W0) as P1. pose proof (wf_Pc _ _ W0) as P2.
  rewrite quad_ms. destruct (Req_dec (vdot u u) 0) as [Z|Z].
  { assert (u = vzero) as ->. { destruct u as [x y z]. unfold vdot in Z. cbn in Z. assert (x = 0 /\ y = 0 /\ z = 0) as (-> & -> & ->) by (repeat split; nra). reflexivity. }
    unfold vdot; cbn. lra. }
  assert (0 < vdot u u) as Hu by (unfold vdot in *; nra).
  set (a := match e with RightInvariant => u | LeftInvariant => rot (sX s) *v u end).
  assert (vdot a a = vdot u u) as Ea.
  { unfold a. destruct e; [|reflexivity]. transitivity (vdot u (mtr (rot (sX s)) *m rot (sX s) *v u)); [destruct (rot (sX s)), u; unfold vdot; cbn; ring|].
    rewrite HR. destruct u; unfold vdot; cbn; ring. }
  assert (uncertain e s 0 a (p / vdot u u)) as F.
  { apply H; [rewrite Ea; right; field; exact Z|]. apply Rmult_le_pos; [exact Hp|]. left. apply Rinv_0_lt_compat. exact Hu. }
  apply (unc_K 0 a _ K _ _ W0) in F.
  assert (exists N, nr N = (9 + 3 * K)%nat /\ variance_floor (sP s) N (p / vdot u u) /\ getV3 N 6 0 = u) as (N & N1 & N2 & N3).
  { destruct e.
    - exists (L2R K (sekinv K (sX s)) *M world_move K 0 a). split; [reflexivity|]. split; [apply floor_left; auto|].
      rewrite (proj2 (move_left K (sX s) 0 a HK HX) eq_refl). unfold a. transitivity (mtr (rot (sX s)) *m rot (sX s) *v u); [symmetry; apply mv_mul|].
      rewrite HR. destruct u; ring3.
    - exists (world_move K 0 a). split; [reflexivity|]. split; [exact F|]. apply pos_of_move. exact HK. }
  specialize (N2 (embed (9 + 3 * K) 2 u) ltac:(mdim; congruence) eq_refl).
  rewrite (quad_embed (9 + 3 * K)) in N2 by (congruence || lia). rewrite along_embed in N2 by (congruence || lia). change (3 * 2)%nat with 6%nat in N2. rewrite N3 in N2.
  replace (p / vdot u u * vdot u u ^ 2) with (p * vdot u u) in N2 by (field; exact Z). exact N2.
Qed.
Lemma read_heading K s r : wfp K s -> uncertain RightInvariant s 1 vzero r -> r <= ent (sP s) 2 2.
Proof.
  intros W F. pose proof (wp_wf _ _ W) as W0. apply (unc_K 1 vzero _ K _ _ W0) in F. cbn [right_cov] in F. pose proof (wf_Pr _ _ W0) as P1. pose proof (wf_Pc _ _ W0) as P2.
  specialize (F (embed (9 + 3 * K) 0 (mkV 0 0 1)) ltac:(mdim; congruence) eq_refl).
  rewrite (quad_embed (9 + 3 * K)) in F by (congruence || lia). rewrite along_embed in F by (reflexivity || lia). change (3 * 0)%nat with 0%nat in F. rewrite rot_of_move in F.
  unfold cov_block, getM3, mmk, vdot in F. cbn in F. lra.
Qed.
Lemma fits_pos r p a c : 0 <= r -> 0 <= c -> c * vdot a a <= p -> fits r p 0 a c.
Proof.
  intros Hr Hc H x u. rewrite Rmult_0_l, Rplus_0_l.
  assert (vdot a u ^ 2 <= vdot a a * vdot u u) as CS.
  { destruct a as [x1 y1 z1], u as [x2 y2 z2]. unfold vdot. cbn [v0 v1 v2]. pose proof (pow2_ge_0 (x1 * y2 - y1 * x2)). pose proof (pow2_ge_0 (y1 * z2 - z1 * y2)). pose proof (pow2_ge_0 (x1 * z2 - z1 * x2)).
    replace ((x1 * x2 + y1 * y2 + z1 * z2) ^ 2) with ((x1 * x1 + y1 * y1 + z1 * z1) * (x2 * x2 + y2 * y2 + z2 * z2) - (x1 * y2 - y1 * x2) ^ 2 - (y1 * z2 - z1 * y2) ^ 2 - (x1 * z2 - z1 * x2) ^ 2) by ring. lra. }
  assert (0 <= vdot u u) by (unfold vdot; nra). assert (0 <= r * x ^ 2) by (apply Rmult_le_pos; [exact Hr|nra]).
  apply Rle_trans with (c * (vdot a a * vdot u u)); [apply Rmult_le_compat_l; auto|]. rewrite <- Rmult_assoc. apply Rle_trans with (p * vdot u u); [apply Rmult_le_compat_r; auto|lra].
Qed.
Lemma sq_or_pos o d : 0 <= d -> 0 <= sq_or o d. Proof. destruct o; cbn; [nra|auto]. Qed.
Lemma fits_heading r p : 0 <= p -> fits r p 1 vzero r.
Proof. intros Hp x u. assert (0 <= p * vdot u u) by (apply Rmult_le_pos; [exact Hp|unfold vdot; nra]). replace (vdot vzero u) with 0 by (destruct u; unfold vdot; cbn; ring). nra. Qed.
Lemma thm_each f os w a c : config_ok f -> imu_stream (imus os) -> protocol (build f) os -> fits (var_of (k_rot (f_est f)) (3 / 100)) (var_of (k_pos (f_est f)) (1 / 100000)) w a c ->
  f_err f = RightInvariant \/ w = 0 -> each_estimate f os (fun s => (exists K, wfp K s) /\ uncertain (f_err f) s w a c).
Proof.
  intros HC HS HP HF HE. pose proof (build_ok f _ HC HS) as HB. destruct (run_good _ _ _ _ _ _ HF HE os (build f) HB HP (build_good f w a c)) as [G1 G2].
  split; [exact G1|]. intros e E He. destruct (G2 e E) as (_ & _ & _ & G). split; [|apply G; exact He].
  destruct (on_sound [] e (reach_ok f os e (conj HC (conj HS (conj HP E)))) He) as (n & t & Hw & _). eauto.
Qed.

Lemma each_impl f os (P Q : rstate -> Prop) : (forall s, P s -> Q s) -> each_estimate f os P -> each_estimate f os Q.
Proof. intros H [A B]. split; [eapply Forall_impl; [|exact A]; exact H|]. intros e E He. apply H. apply B; auto. Qed.
Lemma each_all {T} f os (P : T -> rstate -> Prop) : (forall t, each_estimate f os (P t)) -> each_estimate f os (fun s => forall t, P t s).
Proof.
  intros H. split; [|intros e E He t; apply (H t); auto]. apply Forall_forall. intros s Hs t. destruct (H t) as [A _]. rewrite Forall_forall in A. apply A. exact Hs.
Qed.
Lemma thm_position_floor f os : config_ok f -> imu_stream (imus os) -> protocol (build f) os -> each_estimate f os (fun s => m3_le (start_cov f 2) (cov_block (sP s) 2)).
Proof.
  intros HC HS HP. set (p := var_of (k_pos (f_est f)) (1 / 100000)). assert (0 <= p) as Hp by (unfold p, var_of; destruct (k_pos (f_est f)); nra).
  assert (each_estimate f os (fun s => (exists K, wfp K s) /\ uncertain (f_err f) s 0 vzero 0)) as H0.
  { apply thm_each; auto. apply fits_pos; [unfold var_of; destruct (k_rot (f_est f)); nra|lra|]. fold p. lra. }
  assert (each_estimate f os (fun s => forall t : V3 * R, snd t * vdot (fst t) (fst t) <= p -> 0 <= snd t -> uncertain (f_err f) s 0 (fst t) (snd t))) as H1.
  { apply each_all. intros [a c]. cbn [fst snd]. destruct (Rle_dec (c * vdot a a) p) as [L|L], (Rle_dec 0 c) as [M|M].
    - eapply each_impl; [|apply (thm_each f os 0 a c); auto; apply fits_pos; auto; unfold var_of; destruct (k_rot (f_est f)); nra]. intros s [_ H] _ _. exact H.
    - eapply each_impl; [|exact H0]. intros s _ A B. contradiction.
    - eapply each_impl; [|exact H0]. intros s _ A B. contradiction.
    - eapply each_impl; [|exact H0]. intros s _ A B. contradiction. }
  assert (each_estimate f os (fun s => (exists K, wfp K s) /\ forall a c, c * vdot a a <= p -> 0 <= c -> uncertain (f_err f) s 0 a c)) as H2.
  { destruct H0 as [A0 B0], H1 as [A1 B1]. split.
    - apply Forall_forall. intros s Hs. rewrite Forall_forall in A0, A1. split; [apply A0; exact Hs|]. intros a c. apply (A1 s Hs (a, c)).
    - intros e E He. split; [apply (B0 e E He)|]. intros a c. apply (B1 e E He (a, c)). }
  eapply each_impl; [|exact H2]. intros s [[K W] H]. apply (read_pos K (f_err f) s p W H Hp).
Qed.
Lemma thm_heading_floor f os : config_ok f -> imu_stream (imus os) -> protocol (build f) os -> f_err f = RightInvariant ->
  each_estimate f os (fun s => var_of (k_rot (f_est f)) (3 / 100) <= ent (sP s) 2 2).
Proof.
  intros HC HS HP HE. eapply each_impl; [|apply (thm_each f os 1 vzero (var_of (k_rot (f_est f)) (3 / 100))); auto].
  - intros s [[K W] H]. rewrite HE in H. eapply read_heading; eauto.
  - apply fits_heading. unfold var_of; destruct (k_pos (f_est f)); nra.
Qed.


(** the worked example of C76, in generic terms (nothing about exF is computed) *)
Lemma protocol_prefix : forall l k e0, protocol e0 (l ++ k) -> protocol e0 l.
Proof. induction l as [|o l IH]; intros k e0 X; [exact I|]. destruct X as [X1 X2]. split; [exact X1|]. intros e' E. exact (IH k e' (X2 e' E)). Qed.
Lemma uncertain_at f os e w a c : config_ok f -> imu_stream (imus os) -> protocol (build f) os -> est_run (build f) os = Ok e -> e_enabled e = true -> f_err f = RightInvariant ->
  fits (var_of (k_rot (f_est f)) (3 / 100)) (var_of (k_pos (f_est f)) (1 / 100000)) w a c -> uncertain (f_err f) (e_state e) w a c.
Proof. intros H1 H2 H3 H4 H5 H6 H7. destruct (thm_each f os w a c H1 H2 H3 H7 (or_introl H6)) as [_ T]. exact (proj2 (T e H4 H5)). Qed.
Lemma run_app os1 os2 e e1 e2 : est_run e os1 = Ok e1 -> est_run e1 os2 = Ok e2 -> est_run e (os1 ++ os2) = Ok e2.
Proof. unfold est_run. intros A B. rewrite foldM_app, A. exact B. Qed.
Lemma run_one e o e' : est_step e o = Ok e' -> est_run e [o] = Ok e'.
Proof. unfold est_run. cbn [foldM]. intros ->. reflexivity. Qed.
Lemma run_two e o e1 os e' : est_step e o = Ok e1 -> est_run e1 os = Ok e' -> est_run e (o :: os) = Ok e'.
Proof. unfold est_run. cbn [foldM]. intros -> H. exact H. Qed.
Lemma published_two e4 e5 e6 e7 e8 m v l1 l2 : est_step e4 (OImu m) = Ok e5 -> est_step e5 (ORunOnce l1) = Ok e6 -> est_step e6 (OVel 0 v) = Ok e7 -> est_step e7 (ORunOnce l2) = Ok e8 ->
  e_out e6 = e_out e5 ++ [e_state e6] -> e_out e8 = e_out e7 ++ [e_state e8] ->
  published is_filter_op e4 [OImu m; ORunOnce l1; OVel 0 v; ORunOnce l2] = [e_state e6; e_state e8].
Proof. intros A B C D O6 O8. cbn [published]. rewrite A, B, C, D. cbn [is_filter_op app]. rewrite O6, O8, !skipn_app_len. reflexivity. Qed.
