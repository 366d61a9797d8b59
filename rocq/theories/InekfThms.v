(** Theorems about the invariant measurement updates. *)
From Coq Require Import Reals ZArith List Bool Lia Lra.
From Verif Require Import Res Vec3 Mat LieGroup MatInv Psd Spec LieSO3 LieSEK RobotState StateProofs Inekf SpecFilter InekfProofs.
Import ListNotations.
Local Open Scope R_scope.

Ltac fields := repeat split; srs; auto.

Lemma thm_right_group K m Z H N s e s' : wf K s -> measurement K m Z H N ->
  CorrectRightInvariant Z H N s e = Ok s' -> wf K s' /\ same_meta s s'.
Proof.
  intros W M E. rewrite (CorrectRight_eq K m) in E by auto. cbv zeta in E.
  destruct (minv _) as [Si|]; [|discriminate]. injection E as <-. pose proof W as W0. destruct W.
  split; [|fields]. constructor; srs; mdim.
  - apply SEK_mult; auto. apply dX_SEK.
  - destruct e; cbn [from_right]; unfold jos; mdim. 
  - destruct e; cbn [from_right]; unfold jos; mdim. 
Qed.
Lemma thm_left_group K m Z H N s e s' : wf K s -> measurement K m Z H N ->
  CorrectLeftInvariant Z H N s e = Ok s' -> wf K s' /\ same_meta s s'.
Proof.
  intros W M E. rewrite (CorrectLeft_eq K m) in E by auto. cbv zeta in E.
  destruct (minv _) as [Si|]; [|discriminate]. injection E as <-. pose proof W as W0. destruct W.
  split; [|fields]. constructor; srs; mdim.
  - apply SEK_mult; auto. apply dX_SEK.
  - destruct e; cbn [left_out]; unfold jos; mdim.
  - destruct e; cbn [left_out]; unfold jos; mdim.
Qed.
Lemma thm_apply_group K c s s' : wf K s -> corr_ok K c -> apply_corr s c = Ok s' -> wf K s' /\ same_meta s s'.
Proof.
  intros W (m & M). unfold apply_corr. destruct (c_right c).
  - apply (thm_right_group K m); auto.
  - apply (thm_left_group K m); auto.
Qed.
Lemma same_meta_trans a b c : same_meta a b -> same_meta b c -> same_meta a c.
Proof. unfold same_meta. intuition congruence. Qed.
Lemma same_meta_refl a : same_meta a a. Proof. fields. Qed.

Lemma thm_corr_seq K cs : forall s s', wf K s -> Forall (corr_ok K) cs ->
  foldM apply_corr s cs = Ok s' -> wf K s' /\ same_meta s s'.
Proof.
  induction cs as [|c cs IH]; intros s s' W F E; cbn [foldM] in E.
  - injection E as <-. split; auto. apply same_meta_refl.
  - inversion F; subst. apply bind_inv in E. destruct E as (s1 & E1 & E2).
    destruct (thm_apply_group K c s s1) as [W1 M1]; auto.
    destruct (IH s1 s') as [W2 M2]; auto. split; auto. eapply same_meta_trans; eauto.
Qed.

(** ** Covariance *)
Lemma c4_pos : 0 <= c4. Proof. unfold c4; lra. Qed.
Lemma work_cov_psd K en P : psd P -> psd (work_cov K en P).
Proof. intros; destruct en; auto. apply psd_mask_diag; auto. apply c4_pos. Qed.
Lemma to_right_psd K e X P : nr P = (9 + 3 * K)%nat -> psd P -> psd (to_right K e X P).
Proof. intros; destruct e; cbn [to_right]; auto. apply psd_conj; auto; mdim. Qed.
Lemma from_right_psd K e X P : nr P = (9 + 3 * K)%nat -> psd P -> psd (from_right K e X P).
Proof. intros; destruct e; cbn [from_right]; auto. apply psd_conj; auto; mdim. Qed.
Lemma left_in_psd K e X P : nr P = (9 + 3 * K)%nat -> psd P -> psd (left_in K e X P).
Proof. intros; destruct e; cbn [left_in]; auto. apply psd_conj; auto; mdim. Qed.
Lemma left_out_psd K e X P : nr P = (9 + 3 * K)%nat -> psd P -> psd (left_out K e X P).
Proof. intros; destruct e; cbn [left_out]; auto. apply psd_conj; auto; mdim. Qed.

Lemma jos_psd P H N n m Si : psd P -> psd N -> nr P = n -> nr H = m -> nc H = n -> nr N = m ->
  minv (Sof P H N) = Some Si -> psd (jos n P H N (Gof P H Si)).
Proof. intros. unfold jos, Gof. apply (kalman_joseph_psd P H N Si n m); auto. Qed.

Lemma P1R_facts K s e : wf K s -> psd (sP s) ->
  let P1 := to_right K e (sX s) (work_cov K (sen s) (sP s)) in psd P1 /\ nr P1 = (9 + 3 * K)%nat /\ nc P1 = (9 + 3 * K)%nat.
Proof.
  intros [] HP P1. destruct (work_cov_dim K (sen s) (sP s)).
  split; [apply to_right_psd; [congruence|apply work_cov_psd; auto]|]. apply to_right_dim; congruence.
Qed.
Lemma P1L_facts K s e : wf K s -> psd (sP s) ->
  let P1 := left_in K e (sX s) (work_cov K (sen s) (sP s)) in psd P1 /\ nr P1 = (9 + 3 * K)%nat /\ nc P1 = (9 + 3 * K)%nat.
Proof.
  intros [] HP P1. destruct (work_cov_dim K (sen s) (sP s)).
  split; [apply left_in_psd; [congruence|apply work_cov_psd; auto]|]. unfold P1; destruct e; cbn [left_in]; mdim; split; congruence.
Qed.

Lemma thm_right_psd K m Z H N s e : wf K s -> measurement K m Z H N -> psd (sP s) -> pd N ->
  exists s', CorrectRightInvariant Z H N s e = Ok s' /\ psd (sP s').
Proof.
  intros W M HP HN. rewrite (CorrectRight_eq K m) by auto. cbv zeta.
  destruct (P1R_facts K s e W HP) as (F1 & F2 & F3). set (P1 := to_right _ _ _ _) in *.
  destruct M as (M1 & M2 & M3 & M4 & M5 & M6).
  destruct (pd_inv (Sof P1 H N)) as [Si ES]. { apply (kalman_S_pd P1 H N (9 + 3 * K) m); auto. }
  rewrite ES. eexists; split; [reflexivity|]. srs.
  apply from_right_psd; [unfold jos; mdim|]. apply psd_mask_diag; [apply c4_pos|].
  apply (jos_psd P1 H N _ m); auto. apply pd_psd; auto.
Qed.
Lemma thm_left_psd K m Z H N s e : wf K s -> measurement K m Z H N -> psd (sP s) -> pd N ->
  exists s', CorrectLeftInvariant Z H N s e = Ok s' /\ psd (sP s').
Proof.
  intros W M HP HN. rewrite (CorrectLeft_eq K m) by auto. cbv zeta.
  destruct (P1L_facts K s e W HP) as (F1 & F2 & F3). set (P1 := left_in _ _ _ _) in *.
  destruct M as (M1 & M2 & M3 & M4 & M5 & M6).
  destruct (pd_inv (Sof P1 H N)) as [Si ES]. { apply (kalman_S_pd P1 H N (9 + 3 * K) m); auto. }
  rewrite ES. eexists; split; [reflexivity|]. srs.
  apply left_out_psd; [unfold jos; mdim|].
  apply (jos_psd P1 H N _ m); auto. apply pd_psd; auto.
Qed.
(** sequences of corrections *)
Lemma thm_seq_psd K cs : forall s, wf K s -> psd (sP s) ->
  Forall (fun c => corr_ok K c /\ pd (c_N c)) cs ->
  exists s', foldM apply_corr s cs = Ok s' /\ wf K s' /\ psd (sP s') /\ same_meta s s'.
Proof.
  induction cs as [|c cs IH]; intros s W HP F; cbn [foldM].
  - exists s. split; [reflexivity|]. split; auto. split; auto. apply same_meta_refl.
  - inversion F as [|? ? [[m Hm] HN] F']; subst.
    assert (exists s1, apply_corr s c = Ok s1 /\ psd (sP s1)) as (s1 & E1 & HP1).
    { unfold apply_corr. destruct (c_right c); [apply (thm_right_psd K m)|apply (thm_left_psd K m)]; auto. }
    rewrite E1. cbn [bind]. destruct (thm_apply_group K c s s1) as [W1 M1]; auto. { exists m; auto. }
    destruct (IH s1) as (s' & E2 & W2 & HP2 & M2); auto. exists s'. repeat (split; auto).
    all: eapply same_meta_trans; eauto.
Qed.

(** ** Right coordinates *)
Lemma conj_cancel A B P n : inverse_of n A B -> nr P = n -> nc P = n -> A *M (B *M P *M mT B) *M mT A = P.
Proof.
  intros (H1 & H2 & H3 & H4 & H5 & H6) D1 D2.
  rewrite !mmult_assoc, H5, mmult_eye_l by mdim.
  rewrite <- mmult_assoc, <- mT_mult by mdim. rewrite H5, mT_eye, mmult_eye_r by mdim. reflexivity.
Qed.
Lemma right_cov_to K e s : right_cov K e s = to_right K e (sX s) (sP s).
Proof. destruct e; cbn [right_cov to_right]; rewrite ?L2R_AdB; reflexivity. Qed.
Lemma to_from_right K e X P : SEK K X -> nr P = (9 + 3 * K)%nat -> nc P = (9 + 3 * K)%nat ->
  to_right K e X (from_right K e X P) = P.
Proof.
  intros HX H1 H2. destruct e; cbn [to_right from_right]; [|reflexivity].
  apply (conj_cancel _ _ _ (9 + 3 * K)); auto. apply AdB_inv; auto.
Qed.
Lemma to_right_mask K e X P : nr P = (9 + 3 * K)%nat -> nc P = (9 + 3 * K)%nat ->
  to_right K e X (mask_diag (biasm K) c4 P) = mask_diag (biasm K) c4 (to_right K e X P).
Proof. intros; destruct e; cbn [to_right]; [|reflexivity]. symmetry; apply mask_AdB; auto. Qed.
Lemma to_right_work K e X en P : nr P = (9 + 3 * K)%nat -> nc P = (9 + 3 * K)%nat ->
  to_right K e X (work_cov K en P) = work_cov K en (to_right K e X P).
Proof. intros; destruct en; cbn [work_cov]; [reflexivity|]. apply to_right_mask; auto. Qed.

(** the update in right coordinates *)
Lemma CorrectRight_right K m Z H N s e s' : wf K s -> measurement K m Z H N ->
  CorrectRightInvariant Z H N s e = Ok s' ->
  let P1 := work_cov K (sen s) (right_cov K e s) in
  exists Si, minv (Sof P1 H N) = Some Si /\
    let G := Gof P1 H Si in
    sX s' = dX_of K G Z *M sX s /\ sTheta s' = sTheta s +M put (dTheta_of K G Z) 2 0 (mO 1 1) /\
    right_cov K e s' = mask_diag (yawm K) c4 (jos (9 + 3 * K) P1 H N G).
Proof.
  intros W M E P1. pose proof (thm_right_group K m Z H N s e s' W M E) as [W' _].
  rewrite (CorrectRight_eq K m) in E by auto. cbv zeta in E. destruct W.
  rewrite to_right_work, <- right_cov_to in E by auto. fold P1 in E.
  assert (nr P1 = (9 + 3 * K)%nat /\ nc P1 = (9 + 3 * K)%nat) as [D1 D2].
  { unfold P1. destruct (work_cov_dim K (sen s) (right_cov K e s)) as [-> ->]. rewrite right_cov_to. apply to_right_dim; auto. }
  destruct (minv (Sof P1 H N)) as [Si|]; [|discriminate]. exists Si. split; [reflexivity|].
  injection E as <-. cbv zeta. srs. split; [reflexivity|]. split; [reflexivity|].
  rewrite right_cov_to. srs. apply to_from_right.
  - apply W'.
  - unfold jos; mdim.
  - unfold jos; mdim.
Qed.

Lemma quad_mask m c P x : nr P = nc P -> nr x = nr P -> nc x = 1%nat ->
  (forall i, (i < nr P)%nat -> m i = true -> ent x i 0 = 0) -> quad (mask_diag m c P) x = quad P x.
Proof.
  intros H1 H2 H3 H4. rewrite !quad_sum by mdim. mdim.
  apply sum_ext; intros j Hj. apply sum_ext; intros i Hi.
  rewrite ent_mask by lia. destruct (m i) eqn:Ei; cbn [orb].
  - rewrite (H4 i) by (auto; lia). destruct (Nat.eqb i j); ring.
  - destruct (m j) eqn:Ej; [|reflexivity]. rewrite (H4 j) by (auto; lia). destruct (Nat.eqb i j); ring.
Qed.

Lemma thm_decrease K m Z H N s e s' : wf K s -> measurement K m Z H N -> psd (sP s) -> psd N ->
  CorrectRightInvariant Z H N s e = Ok s' ->
  forall x, nr x = (9 + 3 * K)%nat -> nc x = 1%nat -> ent x (5 + 3 * K) 0 = 0 ->
    (sen s = false -> forall i, (3 + 3 * K <= i)%nat -> ent x i 0 = 0) ->
    quad (right_cov K e s') x <= quad (right_cov K e s) x.
Proof.
  intros W M HP HN E x Hx1 Hx2 Hy Hb.
  destruct (CorrectRight_right K m Z H N s e s' W M E) as (Si & ES & _ & _ & ->).
  assert (psd (right_cov K e s) /\ nr (right_cov K e s) = (9 + 3 * K)%nat /\ nc (right_cov K e s) = (9 + 3 * K)%nat) as (F1 & F2 & F3).
  { rewrite right_cov_to. destruct W. split; [apply to_right_psd; auto|apply to_right_dim; auto]. }
  set (P1 := work_cov K (sen s) (right_cov K e s)) in *.
  assert (psd P1) as G1 by (apply work_cov_psd; auto).
  destruct (work_cov_dim K (sen s) (right_cov K e s)) as [G2 G3]. fold P1 in G2, G3.
  destruct M as (M1 & M2 & M3 & M4 & M5 & M6).
  rewrite quad_mask.
  - pose proof (kalman_decrease P1 H N Si (9 + 3 * K) m G1 HN ltac:(congruence) M3 M4 M5 ES) as (L1 & L2 & L3).
    fold (Gof P1 H Si) in L1, L2, L3. fold (jos (9 + 3 * K) P1 H N (Gof P1 H Si)) in L1, L2, L3.
    apply psd_quad with (x := x) in L3; [|mdim|mdim]. rewrite quad_minus in L3 by auto.
    assert (quad P1 x = quad (right_cov K e s) x) as <-; [|lra].
    unfold P1, work_cov. destruct (sen s); [reflexivity|]. apply quad_mask; [lia|lia|lia|].
    intros i Hi Hm. apply Hb; auto. apply Nat.leb_le. exact Hm.
  - unfold jos. mdim.
  - unfold jos. mdim.
  - mdim.
  - intros i Hi Hm. apply Nat.eqb_eq in Hm. subst i. exact Hy.
Qed.

(** ** Textbook form *)
Lemma reset_mask (m : nat -> bool) (M : nat -> Prop) c P : (forall i, m i = true <-> M i) ->
  reset_at M c P (mask_diag m c P).
Proof.
  intros HM. split; [reflexivity|]. split; [reflexivity|]. intros i j Hi Hj. rewrite ent_mask by auto. split.
  - intros [h|h]; apply HM in h; rewrite h, ?orb_true_r; reflexivity.
  - intros h1 h2. destruct (m i) eqn:E1; [exfalso; apply h1, HM; auto|].
    destruct (m j) eqn:E2; [exfalso; apply h2, HM; auto|]. reflexivity.
Qed.
Lemma expSEK_retract K v : nr v = (3 + 3 * K)%nat -> nc v = 1%nat -> retract K v (expSEK v).
Proof.
  intros H1 H2. split.
  - intros h. apply expSEK_expm; auto.
  - intros h. rewrite (expSEK_K K) by auto. split; [reflexivity|]. split; [reflexivity|].
    intros i j Hi Hj. unfold expSO3, jl. fold TOLERANCE in h.
    destruct (Rlt_dec (vnorm (getV3 v 0 0)) TOLERANCE); [|lra].
    destruct (Nat.ltb_spec j 3).
    + destruct (Nat.ltb_spec i 3).
      * rewrite ent_aff_rot by lia. destruct i as [|[|[|i]]]; try lia; destruct j as [|[|[|j]]]; try lia; reflexivity.
      * rewrite ent_aff_bot by lia. destruct (Nat.eqb i j); reflexivity.
    + destruct (Nat.ltb_spec i 3).
      * replace j with (3 + (j - 3))%nat at 1 by lia. rewrite ent_aff_col by lia.
        rewrite mid_mv || idtac.
        rewrite vget_mv by lia. rewrite !vget_getV3 by lia.
        destruct i as [|[|[|i]]]; try lia; cbn [mget mid m00 m01 m02 m10 m11 m12 m20 m21 m22]; rewrite ?Nat.add_0_r; ring.
      * rewrite ent_aff_bot by lia. destruct (Nat.eqb i j); reflexivity.
Qed.
Lemma biasm_spec K i : biasm K i = true <-> bias_index K i.
Proof. unfold biasm, bias_index. apply Nat.leb_le. Qed.
Lemma yawm_spec K i : yawm K i = true <-> yaw_bias_index K i.
Proof. unfold yawm, yaw_bias_index. apply Nat.eqb_eq. Qed.
Lemma Gof_gain P H N n m Si : nr P = n -> nc P = n -> nr H = m -> nc H = n -> nr N = m -> nc N = m ->
  minv (Sof P H N) = Some Si -> is_gain P H N (Gof P H Si).
Proof.
  intros ? ? ? ? ? ? E. destruct (minv_some _ _ E) as (_ & A1 & A2 & A3 & A4).
  assert (nr (Sof P H N) = m) as E1 by (unfold Sof; mdim). rewrite E1 in *.
  unfold is_gain, Gof. split; [mdim|]. split; [mdim|].
  fold (Sof P H N). rewrite <- mmult_assoc, A4, mmult_eye_r by mdim. reflexivity.
Qed.

Lemma thm_textbook K m Z H N s e s' : wf K s -> measurement K m Z H N ->
  CorrectRightInvariant Z H N s e = Ok s' ->
  exists P1 G dX,
    (sen s = true -> P1 = right_cov K e s) /\
    (sen s = false -> reset_at (bias_index K) (1 / 10000) (right_cov K e s) P1) /\
    is_gain P1 H N G /\
    retract K (sub (G *M Z) 0 0 (3 + 3 * K) 1) dX /\ sX s' = dX *M sX s /\
    (forall i, (i < 6)%nat -> ent (sTheta s') i 0 =
       ent (sTheta s) i 0 + (if Nat.eqb i 2 then 0 else ent (G *M Z) (3 + 3 * K + i) 0)) /\
    reset_at (yaw_bias_index K) (1 / 10000) (joseph_form P1 H N G) (right_cov K e s').
Proof.
  intros W M E. destruct (CorrectRight_right K m Z H N s e s' W M E) as (Si & ES & EX & ET & EP).
  set (P1 := work_cov K (sen s) (right_cov K e s)) in *.
  assert (nr P1 = (9 + 3 * K)%nat /\ nc P1 = (9 + 3 * K)%nat) as [D1 D2].
  { unfold P1. destruct W. destruct (work_cov_dim K (sen s) (right_cov K e s)) as [-> ->]. rewrite right_cov_to. apply to_right_dim; auto. }
  destruct M as (M1 & M2 & M3 & M4 & M5 & M6).
  exists P1, (Gof P1 H Si), (dX_of K (Gof P1 H Si) Z). destruct W.
  split. { unfold P1. intros ->. reflexivity. }
  split. { unfold P1. intros ->. apply reset_mask. apply biasm_spec. }
  split. { apply (Gof_gain _ _ _ (9 + 3 * K) m); auto. }
  split. { apply expSEK_retract; reflexivity. }
  split. { exact EX. }
  split. { intros i Hi. rewrite ET. rewrite ent_plus by (unfold dTheta_of; mdim).
    rewrite ent_put by (unfold dTheta_of; mdim; lia). mdim.
    destruct (Nat.eqb_spec i 2) as [->|Hne].
    - cbn. rewrite ent_O. reflexivity.
    - destruct (inwin 2 1 i && inwin 0 1 0) eqn:Ew.
      { apply andb_true_iff in Ew. rewrite !inwin_true in Ew. lia. }
      unfold dTheta_of. rewrite ent_sub by lia. reflexivity. }
  rewrite EP. unfold joseph_form. rewrite D1. apply reset_mask. apply yawm_spec.
Qed.

(** ** Optimality of the gain *)
Lemma jos_expand P H N G n m : sym P -> nr P = n -> nr H = m -> nc H = n -> nr N = m -> nc N = m -> nr G = n -> nc G = m ->
  jos n P H N G = P -M G *M (H *M P) -M P *M mT H *M mT G +M G *M Sof P H N *M mT G.
Proof.
  intros HP D1 D2 D3 D4 D5 D6 D7. pose proof (proj1 HP) as HPs.
  unfold jos, Sof. rewrite mT_minus, mT_eye, mT_mult by mdim.
  rewrite mmult_minus_l, mmult_eye_l by mdim. rewrite mmult_minus_r by mdim. rewrite mmult_eye_r by mdim.
  rewrite (mmult_minus_l P) by mdim. rewrite mmult_plus_r, mmult_plus_l by mdim. rewrite !mmult_assoc.
  apply mat_ext; [mdim|mdim|]. intros i j Hi Hj.
  repeat (first [rewrite ent_plus by mdim | rewrite ent_minus by mdim]). ring.
Qed.
Lemma gain_optimal P H N G n m : psd P -> psd N -> nr P = n -> nr H = m -> nc H = n -> nr N = m ->
  is_gain P H N G -> forall G', nr G' = n -> nc G' = m ->
  loewner_le (joseph_form P H N G) (joseph_form P H N G').
Proof.
  intros HP HN D1 D2 D3 D4 (K1 & K2 & K3) G' D5 D6.
  pose proof (psd_sq _ HP). pose proof (psd_sq _ HN). fold (Sof P H N) in K3.
  assert (sym (Sof P H N)) as HS.
  { unfold Sof. apply sym_plus; [mdim|mdim| |apply HN]. apply sym_conj; [mdim|apply HP]. }
  assert (psd (Sof P H N)) as HSp.
  { unfold Sof. apply psd_plus; [mdim| |auto]. apply psd_conj; auto; mdim. }
  assert (nr (Sof P H N) = m) by (unfold Sof; mdim). assert (nc (Sof P H N) = m) by (unfold Sof; mdim).
  assert (Sof P H N *M mT G = H *M P) as K4.
  { apply (f_equal mT) in K3. rewrite !mT_mult, mT_T in K3 by mdim.
    apply sym_T in HS. rewrite HS in K3. rewrite (psd_T _ HP) in K3. exact K3. }
  unfold joseph_form. rewrite D1. fold (jos n P H N G) (jos n P H N G').
  rewrite (jos_expand P H N G n m), (jos_expand P H N G' n m) by (auto; mdim; apply HP).
  set (S0 := Sof P H N) in *. clearbody S0.
  split; [mdim|]. split; [mdim|].
  assert ((P -M G' *M (H *M P) -M P *M mT H *M mT G' +M G' *M S0 *M mT G') -M
          (P -M G *M (H *M P) -M P *M mT H *M mT G +M G *M S0 *M mT G)
        = (G' -M G) *M S0 *M mT (G' -M G)) as ->.
  { rewrite mT_minus by mdim. rewrite mmult_minus_l, mmult_minus_r by mdim.
    rewrite !mmult_minus_l by mdim.
    rewrite <- (mmult_assoc G' S0 (mT G)), K4. rewrite K3.
    assert (P *M mT H *M mT G = G *M (H *M P)) as E.
    { rewrite <- K3, <- mmult_assoc, K4. reflexivity. }
    rewrite E. apply mat_ext; [mdim|mdim|]. intros i j Hi Hj.
    repeat (first [rewrite ent_plus by mdim | rewrite ent_minus by mdim]). ring. }
  apply psd_conj; auto. mdim.
Qed.

Lemma thm_optimal K m Z H N s e s' : wf K s -> measurement K m Z H N -> psd (sP s) -> psd N ->
  CorrectRightInvariant Z H N s e = Ok s' ->
  exists P1 G,
    (sen s = true -> P1 = right_cov K e s) /\
    (sen s = false -> reset_at (bias_index K) (1 / 10000) (right_cov K e s) P1) /\
    reset_at (yaw_bias_index K) (1 / 10000) (joseph_form P1 H N G) (right_cov K e s') /\
    forall G', nr G' = (9 + 3 * K)%nat -> nc G' = m ->
      loewner_le (joseph_form P1 H N G) (joseph_form P1 H N G').
Proof.
  intros W M HP HN E. destruct (CorrectRight_right K m Z H N s e s' W M E) as (Si & ES & EX & ET & EP).
  assert (psd (right_cov K e s) /\ nr (right_cov K e s) = (9 + 3 * K)%nat /\ nc (right_cov K e s) = (9 + 3 * K)%nat) as (F1 & F2 & F3).
  { rewrite right_cov_to. destruct W. split; [apply to_right_psd; auto|apply to_right_dim; auto]. }
  set (P1 := work_cov K (sen s) (right_cov K e s)) in *.
  assert (psd P1) as G1 by (apply work_cov_psd; auto).
  destruct (work_cov_dim K (sen s) (right_cov K e s)) as [G2 G3]. fold P1 in G2, G3.
  destruct M as (M1 & M2 & M3 & M4 & M5 & M6).
  exists P1, (Gof P1 H Si).
  split. { unfold P1. intros ->. reflexivity. }
  split. { unfold P1. intros ->. apply reset_mask. apply biasm_spec. }
  split. { rewrite EP. unfold joseph_form. rewrite G2, F2. apply reset_mask. apply yawm_spec. }
  apply gain_optimal; auto; try congruence.
  apply (Gof_gain _ _ _ (9 + 3 * K) m); auto; congruence.
Qed.

(** ** Convention independence *)
Lemma thm_convention K m Z H N sr sl : wf K sr -> wf K sl -> measurement K m Z H N ->
  sX sr = sX sl -> sTheta sr = sTheta sl -> sen sr = sen sl -> sP sr = right_cov K LeftInvariant sl ->
  match CorrectRightInvariant Z H N sr RightInvariant, CorrectRightInvariant Z H N sl LeftInvariant with
  | Ok sr', Ok sl' => sX sr' = sX sl' /\ sTheta sr' = sTheta sl' /\ sP sr' = right_cov K LeftInvariant sl'
  | Fail e1, Fail e2 => e1 = e2
  | _, _ => False
  end.
Proof.
  intros Wr Wl M EX ET En EP.
  destruct (CorrectRightInvariant Z H N sr RightInvariant) as [sr'|e1] eqn:E1;
  destruct (CorrectRightInvariant Z H N sl LeftInvariant) as [sl'|e2] eqn:E2.
  - destruct (CorrectRight_right K m Z H N sr _ sr' Wr M E1) as (Si & ES & A1 & A2 & A3).
    destruct (CorrectRight_right K m Z H N sl _ sl' Wl M E2) as (Si' & ES' & B1 & B2 & B3).
    cbn [right_cov] in *. rewrite <- EP, <- En in *. rewrite ES in ES'. injection ES' as <-.
    split; [rewrite A1, B1, EX; reflexivity|]. split; [rewrite A2, B2, ET; reflexivity|]. congruence.
  - exfalso. destruct (CorrectRight_right K m Z H N sr _ sr' Wr M E1) as (Si & ES & _).
    rewrite (CorrectRight_eq K m) in E2 by auto. cbv zeta in E2. destruct Wl.
    rewrite to_right_work, <- right_cov_to in E2 by auto. rewrite <- EP, <- En in E2.
    cbn [right_cov] in ES. rewrite ES in E2. discriminate.
  - exfalso. destruct (CorrectRight_right K m Z H N sl _ sl' Wl M E2) as (Si & ES & _).
    rewrite (CorrectRight_eq K m) in E1 by auto. cbv zeta in E1. cbn [to_right] in E1.
    rewrite <- EP, <- En in ES. rewrite ES in E1. discriminate.
  - rewrite (CorrectRight_eq K m) in E1, E2 by auto. cbv zeta in E1, E2.
    destruct (minv _) in E1; [discriminate|]. destruct (minv _) in E2; [discriminate|]. congruence.
Qed.

(** ** Zero innovation *)
Lemma expSEK_zero K v : nr v = (3 + 3 * K)%nat -> (forall i, ent v i 0 = 0) -> expSEK v = meye (3 + K).
Proof.
  intros H1 H2. rewrite (expSEK_K K), aff_eye by auto.
  assert (forall i, getV3 v i 0 = vzero) as E.
  { intros i. apply V3_ext; intros a Ha. rewrite vget_getV3, H2 by auto. destruct a as [|[|[|a]]]; reflexivity. }
  rewrite E. unfold expSO3, jl.
  assert (vnorm vzero = 0) as -> by (unfold vnorm, vdot, vzero; cbn; rewrite !Rmult_0_l, !Rplus_0_l; apply sqrt_0).
  pose proof TOLERANCE_pos. destruct (Rlt_dec 0 TOLERANCE); [|lra].
  apply aff_ext. intros k Hk. rewrite E. unfold mv, mid, vzero; cbn. f_equal; ring.
Qed.
Lemma thm_zero_innovation K m H N s c s' : wf K s -> measurement K m (mO m 1) H N -> c_Z c = mO m 1 -> c_H c = H -> c_N c = N ->
  apply_corr s c = Ok s' -> sX s' = sX s /\ sTheta s' = sTheta s.
Proof.
  intros W M EZ EH EN E. unfold apply_corr in E. rewrite EZ, EH, EN in E.
  assert (forall G, nc G = m -> dX_of K G (mO m 1) = meye (3 + K)) as EdX.
  { intros G HG. unfold dX_of. rewrite mmult_O_r. apply expSEK_zero; [reflexivity|]. intros i.
    unfold sub. rewrite ent_mk_if. destruct (inr _ _ _ _); rewrite ?ent_O; reflexivity. }
  assert (forall G, dTheta_of K G (mO m 1) = mO 6 1) as EdT.
  { intros G. unfold dTheta_of. rewrite mmult_O_r. apply mat_ext; mdim. intros i j Hi Hj. mdim.
    rewrite ent_sub, !ent_O by lia. reflexivity. }
  assert (SEK K (sX s)) as HX by apply W.
  assert (put (mO 6 1) 2 0 (mO 1 1) = mO 6 1) as Ep.
  { apply mat_ext; mdim. intros i j Hi Hj. rewrite ent_put by (mdim; lia). rewrite !ent_O. destruct (_ && _)%bool; reflexivity. }
  destruct (c_right c).
  - rewrite (CorrectRight_eq K m) in E by auto. cbv zeta in E.
    destruct (minv _) as [Si|] eqn:ES; [|discriminate]. injection E as <-. srs.
    destruct (minv_some _ _ ES) as (_ & S1 & S2 & _). destruct M as (M1 & M2 & M3 & M4 & M5 & M6).
    assert (nr (Sof (to_right K (c_e c) (sX s) (work_cov K (sen s) (sP s))) H N) = m) as E1 by (unfold Sof; mdim).
    rewrite EdX by (unfold Gof; mdim). rewrite EdT, Ep. destruct W.
    split; [apply mmult_eye_l; apply HX | apply mplus_O_r; auto].
  - rewrite (CorrectLeft_eq K m) in E by auto. cbv zeta in E.
    destruct (minv _) as [Si|] eqn:ES; [|discriminate]. injection E as <-. srs.
    destruct (minv_some _ _ ES) as (_ & S1 & S2 & _). destruct M as (M1 & M2 & M3 & M4 & M5 & M6).
    assert (nr (Sof (left_in K (c_e c) (sX s) (work_cov K (sen s) (sP s))) H N) = m) as E1 by (unfold Sof; mdim).
    rewrite EdX by (unfold Gof; mdim). rewrite EdT. destruct W.
    split; [apply mmult_eye_r; apply HX | apply mplus_O_r; auto].
Qed.

(** ** Frozen biases *)
Definition decoupled (K : nat) (P : mat) : Prop := forall i j, (3 + 3 * K <= i < 9 + 3 * K)%nat -> (j < 3 + 3 * K)%nat -> ent P i j = 0.
Lemma frozen_gain K m P H Si Z : decoupled K P -> bias_free K H -> nc P = (9 + 3 * K)%nat -> nr P = (9 + 3 * K)%nat ->
  nr H = m -> nr Si = m -> forall i, (3 + 3 * K <= i < 9 + 3 * K)%nat -> ent (Gof P H Si *M Z) i 0 = 0.
Proof.
  intros HD HF D1 D2 D3 D4 i Hi. unfold Gof.
  rewrite ent_mult. apply sum_zero; intros k Hk.
  assert (ent (P *M mT H *M Si) i k = 0) as ->; [|ring].
  rewrite ent_mult. apply sum_zero; intros l Hl.
  assert (ent (P *M mT H) i l = 0) as ->; [|ring].
  rewrite ent_mult. apply sum_zero; intros r Hr. rewrite ent_T.
  destruct (Nat.lt_ge_cases r (3 + 3 * K)) as [h|h].
  - rewrite HD by lia. ring.
  - rewrite HF by exact h. ring.
Qed.
Lemma mask_decoupled K P : nr P = (9 + 3 * K)%nat -> nc P = (9 + 3 * K)%nat -> decoupled K (mask_diag (biasm K) c4 P).
Proof.
  intros D1 D2 i j Hi Hj. rewrite ent_mask by lia. unfold biasm. destruct (Nat.leb_spec (3 + 3 * K) i); [|lia]. cbn [orb].
  destruct (Nat.eqb_spec i j); [lia|reflexivity].
Qed.
Lemma frozen_step K m c s s' : wf K s -> sen s = false -> measurement K m (c_Z c) (c_H c) (c_N c) -> bias_free K (c_H c) ->
  apply_corr s c = Ok s' -> sTheta s' = sTheta s.
Proof.
  intros W Hs M HF E. unfold apply_corr in E. pose proof W as W0. destruct W.
  assert (forall G, (forall i, (3 + 3 * K <= i < 9 + 3 * K)%nat -> ent (G *M c_Z c) i 0 = 0) -> dTheta_of K G (c_Z c) = mO 6 1) as HdT.
  { intros G HG. unfold dTheta_of. apply mat_ext; mdim. intros i j Hi Hj. mdim. rewrite ent_sub, ent_O by lia.
    assert (j = 0)%nat as -> by lia. apply HG. lia. }
  assert (put (mO 6 1) 2 0 (mO 1 1) = mO 6 1) as Ep.
  { apply mat_ext; mdim. intros i j Hi Hj. rewrite ent_put by (mdim; lia). rewrite !ent_O. destruct (_ && _)%bool; reflexivity. }
  pose proof M as (M1 & M2 & M3 & M4 & M5 & M6).
  destruct (c_right c).
  - rewrite (CorrectRight_eq K m) in E by auto. cbv zeta in E. rewrite Hs in E. cbn [work_cov] in E.
    rewrite to_right_mask in E by auto.
    destruct (to_right_dim K (c_e c) (sX s) (sP s)) as [Q1 Q2]; auto.
    destruct (minv _) as [Si|] eqn:ES; [|discriminate]. injection E as <-. srs.
    destruct (minv_some _ _ ES) as (_ & S1 & S2 & _).
    rewrite HdT, Ep; [apply mplus_O_r; auto|].
    unfold Sof in S1. apply (frozen_gain K m); auto; mdim. apply mask_decoupled; auto.
  - rewrite (CorrectLeft_eq K m) in E by auto. cbv zeta in E. rewrite Hs in E. cbn [work_cov] in E.
    assert (left_in K (c_e c) (sX s) (mask_diag (biasm K) c4 (sP s)) = mask_diag (biasm K) c4 (left_in K (c_e c) (sX s) (sP s))) as EL.
    { destruct (c_e c); cbn [left_in]; [|reflexivity]. symmetry; apply mask_AdB; auto. }
    rewrite EL in E.
    assert (nr (left_in K (c_e c) (sX s) (sP s)) = (9 + 3 * K)%nat /\ nc (left_in K (c_e c) (sX s) (sP s)) = (9 + 3 * K)%nat) as [Q1 Q2].
    { destruct (c_e c); cbn [left_in]; mdim; auto. }
    destruct (minv _) as [Si|] eqn:ES; [|discriminate]. injection E as <-. srs.
    destruct (minv_some _ _ ES) as (_ & S1 & S2 & _).
    rewrite HdT; [apply mplus_O_r; auto|].
    unfold Sof in S1. apply (frozen_gain K m); auto; mdim. apply mask_decoupled; auto.
Qed.
Lemma thm_frozen K cs : forall s s', wf K s -> sen s = false ->
  Forall (fun c => corr_ok K c /\ bias_free K (c_H c)) cs ->
  foldM apply_corr s cs = Ok s' -> sTheta s' = sTheta s.
Proof.
  induction cs as [|c cs IH]; intros s s' W Hs F E; cbn [foldM] in E; [congruence|].
  inversion F as [|? ? [[m Hm] HB] F']; subst. apply bind_inv in E. destruct E as (s1 & E1 & E2).
  destruct (thm_apply_group K c s s1) as [W1 M1]; auto. { exists m; auto. }
  rewrite (IH s1 s'); auto; [|destruct M1; intuition congruence]. apply (frozen_step K m c); auto.
Qed.
Lemma thm_yaw_frozen K cs : forall s s', wf K s ->
  Forall (fun c => corr_ok K c /\ c_right c = true) cs ->
  foldM apply_corr s cs = Ok s' -> ent (sTheta s') 2 0 = ent (sTheta s) 2 0.
Proof.
  induction cs as [|c cs IH]; intros s s' W F E; cbn [foldM] in E; [congruence|].
  inversion F as [|? ? [[m Hm] HB] F']; subst. apply bind_inv in E. destruct E as (s1 & E1 & E2).
  destruct (thm_apply_group K c s s1) as [W1 M1]; auto. { exists m; auto. }
  rewrite (IH s1 s'); auto. unfold apply_corr in E1. rewrite HB in E1.
  destruct (thm_textbook K m _ _ _ s _ s1 W Hm E1) as (P1 & G & dX & _ & _ & _ & _ & _ & HT & _).
  rewrite HT by lia. cbn. ring.
Qed.

(** ** The left-invariant update *)
Lemma thm_left_form K m Z H N s e s' : wf K s -> measurement K m Z H N ->
  CorrectLeftInvariant Z H N s e = Ok s' ->
  exists Xi Pin P1 G dX,
    inverse_of (3 + K) (sX s) Xi /\
    Pin = match e with RightInvariant => sP s | LeftInvariant => L2R K Xi *M sP s *M mT (L2R K Xi) end /\
    (sen s = true -> P1 = Pin) /\ (sen s = false -> reset_at (bias_index K) (1 / 10000) Pin P1) /\
    is_gain P1 H N G /\
    retract K (sub (G *M Z) 0 0 (3 + 3 * K) 1) dX /\ sX s' = sX s *M dX /\
    (forall i, (i < 6)%nat -> ent (sTheta s') i 0 = ent (sTheta s) i 0 + ent (G *M Z) (3 + 3 * K + i) 0) /\
    sP s' = match e with
            | RightInvariant => L2R K (sX s') *M joseph_form P1 H N G *M mT (L2R K (sX s'))
            | LeftInvariant => joseph_form P1 H N G end.
Proof.
  intros W M E. rewrite (CorrectLeft_eq K m) in E by auto. cbv zeta in E. destruct W.
  assert (left_in K e (sX s) (work_cov K (sen s) (sP s)) = work_cov K (sen s) (left_in K e (sX s) (sP s))) as EL.
  { destruct e; cbn [left_in]; [|reflexivity]. destruct (sen s); cbn [work_cov]; [reflexivity|]. symmetry; apply mask_AdB; auto. }
  rewrite EL in E.
  assert (nr (left_in K e (sX s) (sP s)) = (9 + 3 * K)%nat /\ nc (left_in K e (sX s) (sP s)) = (9 + 3 * K)%nat) as [Q1 Q2].
  { destruct e; cbn [left_in]; mdim; auto. }
  set (Pin := left_in K e (sX s) (sP s)) in *. set (P1 := work_cov K (sen s) Pin) in *.
  destruct (work_cov_dim K (sen s) Pin) as [G2 G3]. fold P1 in G2, G3.
  destruct M as (M1 & M2 & M3 & M4 & M5 & M6).
  destruct (minv (Sof P1 H N)) as [Si|] eqn:ES; [|discriminate]. injection E as <-. srs.
  exists (sekinv K (sX s)), Pin, P1, (Gof P1 H Si), (dX_of K (Gof P1 H Si) Z).
  split; [apply sekinv_spec; auto|].
  split. { unfold Pin. destruct e; cbn [left_in]; rewrite ?L2R_AdB; reflexivity. }
  split. { unfold P1. intros ->. reflexivity. }
  split. { unfold P1. intros ->. apply reset_mask. apply biasm_spec. }
  split. { apply (Gof_gain _ _ _ (9 + 3 * K) m); auto; congruence. }
  split. { apply expSEK_retract; reflexivity. }
  split; [reflexivity|].
  split. { intros i Hi. rewrite ent_plus by (unfold dTheta_of; mdim). unfold dTheta_of. rewrite ent_sub by lia. reflexivity. }
  unfold joseph_form. rewrite G2, Q1. fold (jos (9 + 3 * K) P1 H N (Gof P1 H Si)).
  destruct e; cbn [left_out]; rewrite ?L2R_AdB; reflexivity.
Qed.

Definition ex_X : mat := sek 2 mid (fun k => if Nat.eqb k 0 then mkV 0 0 1 else vzero).
Definition ex_state (P : mat) : rstate := set_enable_imu_bias_update (RS_XTP ex_X (mO 6 1) P) true.
Lemma ex_X_SEK : SEK 2 ex_X. Proof. apply SEK_sek. apply SO3_id. Qed.
Lemma ex_wf P : nr P = 15%nat -> nc P = 15%nat -> wf 2 (ex_state P).
Proof. intros. constructor; cbn; auto. apply ex_X_SEK. Qed.
Lemma ex_noinfo P e : nr P = 15%nat -> nc P = 15%nat ->
  exists s', CorrectLeftInvariant (mO 1 1) (mO 1 15) (meye 1) (ex_state P) e = Ok s' /\ sX s' = ex_X /\
    sP s' = left_out 2 e ex_X (left_in 2 e ex_X P).
Proof.
  intros H1 H2. rewrite (CorrectLeft_eq 2 1); [|apply ex_wf; auto|repeat split]. cbv zeta. cbn [sen ex_state work_cov sX set_enable_imu_bias_update RS_XTP].
  set (P1 := left_in 2 e ex_X (sP _)).
  assert (nr P1 = 15%nat /\ nc P1 = 15%nat) as [D1 D2].
  { unfold P1. destruct e; cbn [left_in]; mdim; auto. }
  assert (Sof P1 (mO 1 15) (meye 1) = meye 1) as ES.
  { unfold Sof. rewrite !mmult_O_l. mdim. apply mplus_O_l; reflexivity. }
  rewrite ES. rewrite (minv_unique (meye 1) (meye 1) 1); auto; [|apply mmult_eye_l; reflexivity].
  eexists. split; [reflexivity|]. srs.
  assert (Gof P1 (mO 1 15) (meye 1) = mO 15 1) as EG.
  { unfold Gof. rewrite mT_O, mmult_O_r, mmult_O_l. rewrite D1. reflexivity. }
  rewrite EG.
  assert (dX_of 2 (mO 15 1) (mO 1 1) = meye 5) as EdX.
  { unfold dX_of. rewrite mmult_O_r. apply (expSEK_zero 2); [reflexivity|]. intros i.
    unfold sub. rewrite ent_mk_if. destruct (inr _ _ _ _); rewrite ?ent_O; reflexivity. }
  rewrite EdX, mmult_eye_r by reflexivity. split; [reflexivity|].
  f_equal. unfold jos. rewrite !mmult_O_l. cbn [nc mO mk mT]. change (9 + 3 * 2)%nat with 15%nat.
  rewrite mminus_O_r by reflexivity. rewrite mmult_eye_l, mT_eye, mmult_eye_r by mdim.
  apply mplus_O_r; auto.
Qed.
Lemma ex_cov_differs : AdB 2 ex_X *M mT (AdB 2 ex_X) <> AdB 2 (sekinv 2 ex_X) *M mT (AdB 2 (sekinv 2 ex_X)).
Proof.
  intros E. apply (f_equal (fun M => ent M 1 3)) in E.
  rewrite <- !L2R_AdB in E.
  assert (forall f i j, (i < 15)%nat -> (j < 15)%nat ->
     ent (L2R 2 (sek 2 mid f)) i j =
     if ((i <? 9) && (j <? 9))%nat then
      mget (if Nat.eqb (i / 3) (j / 3) then mid
            else if Nat.eqb (j / 3) 0 then crossm (col (sek 2 mid f) (i / 3 - 1)) *m mid
            else mzero) (i mod 3) (j mod 3)
    else if Nat.eqb i j then 1 else 0) as EL.
  { intros f i j Hi Hj. unfold L2R. rewrite ent_mk by auto. rewrite rot_aff. reflexivity. }
  assert (sekinv 2 ex_X = sek 2 mid (fun k => if Nat.eqb k 0 then mkV 0 0 (-1) else vzero)) as EI.
  { unfold sekinv, ex_X. rewrite rot_aff. replace (mtr mid) with mid by reflexivity. apply aff_ext. intros k Hk.
    rewrite col_aff by lia. destruct (Nat.eqb k 0); unfold vneg, mv, vzero, mid; cbn; f_equal; ring. }
  rewrite EI in E. unfold ex_X in E.
  rewrite !ent_mult in E. change (nc (L2R 2 _)) with 15%nat in E.
  cbn [sum] in E. rewrite !ent_T in E. rewrite !EL in E by lia.
  cbn -[col sek] in E. rewrite !col_aff in E by lia. cbn in E. lra.
Qed.
Lemma thm_left_refuted : exists sr sl sr' sl', wf 2 sr /\ wf 2 sl /\
  sX sr = sX sl /\ sTheta sr = sTheta sl /\ sen sr = sen sl /\ psd (sP sr) /\ psd (sP sl) /\
  sP sr = right_cov 2 LeftInvariant sl /\
  measurement 2 1 (mO 1 1) (mO 1 15) (meye 1) /\
  CorrectLeftInvariant (mO 1 1) (mO 1 15) (meye 1) sr RightInvariant = Ok sr' /\
  CorrectLeftInvariant (mO 1 1) (mO 1 15) (meye 1) sl LeftInvariant = Ok sl' /\
  sP sr' <> right_cov 2 LeftInvariant sl' /\ sP sr' <> sP sr.
Proof.
  set (B := AdB 2 (sekinv 2 ex_X)).
  destruct (ex_noinfo (meye 15) RightInvariant) as (sr' & E1 & E2 & E3); auto.
  destruct (ex_noinfo (B *M mT B) LeftInvariant) as (sl' & F1 & F2 & F3); auto.
  exists (ex_state (meye 15)), (ex_state (B *M mT B)), sr', sl'.
  pose proof (AdB_inv 2 ex_X ex_X_SEK) as HI. fold B in HI. destruct HI as (I1 & I2 & I3 & I4 & I5 & I6).
  split; [apply ex_wf; reflexivity|]. split; [apply ex_wf; reflexivity|].
  split; [reflexivity|]. split; [reflexivity|]. split; [reflexivity|].
  split; [apply psd_eye|].
  assert (B *M mT B = B *M meye 15 *M mT B) as EB by (rewrite mmult_eye_r by reflexivity; reflexivity).
  split; [change (psd (B *M mT B)); rewrite EB; apply psd_conj; [reflexivity|apply psd_eye]|].
  split. { cbn [right_cov]. rewrite L2R_AdB. change (sX (ex_state (B *M mT B))) with ex_X. change (sP (ex_state (B *M mT B))) with (B *M mT B).
    change (sP (ex_state (meye 15))) with (meye 15). rewrite EB. symmetry. apply (conj_cancel _ _ _ 15); try reflexivity.
    repeat (split; auto). }
  split; [repeat split|]. split; [exact E1|]. split; [exact F1|].
  cbn [left_out left_in] in E3, F3. rewrite mmult_eye_r in E3 by reflexivity.
  split.
  - cbn [right_cov]. rewrite L2R_AdB, F2, F3, E3. fold B.
    rewrite (conj_cancel _ _ _ 15); try reflexivity; [|repeat (split; auto)].
    apply ex_cov_differs.
  - rewrite E3. change (sP (ex_state (meye 15))) with (meye 15). intros E.
    (* then A A^T = I and hence B B^T = I as well, contradiction *)
    apply ex_cov_differs. rewrite E. fold B.
    change (9 + 3 * 2)%nat with 15%nat in I5, I6.
    assert (mT (AdB 2 ex_X) = B) as EA.
    { rewrite <- (mmult_eye_l (mT (AdB 2 ex_X)) 15) by reflexivity. rewrite <- I6, <- mmult_assoc, E. apply mmult_eye_r; reflexivity. }
    rewrite <- EA, mT_T. rewrite EA. symmetry; exact I6.
Qed.
