(** Proofs about LeggedKinematicsCorrection: one update, one call, histories. *)
From Coq Require Import Reals ZArith List Bool Lia Lra.
From Verif Require Import Res Vec3 Mat LieGroup MatInv Psd Spec SpecState LieSO3 LieSEK LieThms RobotState StateProofs StateHist StateMisc Inekf SpecFilter
  InekfProofs InekfThms Imu Propagation SpecProp Blk PsdBlk PropagationProofs PropagationThms Queue VelCorr LegCorr SpecCorr ImuNeg VelThms LegThms LegAdd LegLoop.
Import ListNotations.
Local Open Scope R_scope.

Lemma added_spec c id0 : forall legs id, In id0 (map nid (added c id legs)) <-> exists o, (id <= id0)%nat /\ nth_error legs (id0 - id) = Some o /\ lo_contact o = true /\ lc_map c id0 = None.
Proof.
  induction legs as [|g legs IH]; intros id; cbn [added].
  - split; [intros []|]. intros (o & _ & E & _). destruct (id0 - id)%nat; discriminate.
  - rewrite map_app, in_app_iff, IH. split.
    + intros [H|(o & H1 & H2 & H3)].
      * destruct (lo_contact g) eqn:Eg, (lc_map c id) eqn:Em; cbn in H; try tauto. destruct H as [<-|[]].
        exists g. unfold nid. cbn [fst]. rewrite Nat.sub_diag. repeat split; auto.
      * exists o. split; [lia|]. replace (id0 - id)%nat with (S (id0 - S id)) by lia. auto.
    + intros (o & H1 & H2 & H3 & H4). destruct (Nat.eq_dec id0 id) as [->|Hne].
      * rewrite Nat.sub_diag in H2. injection H2 as ->. left. rewrite H3, H4. left; auto.
      * right. exists o. split; [lia|]. replace (id0 - id)%nat with (S (id0 - S id)) in H2 by lia. auto.
Qed.
Lemma added_in c : forall legs id id0 o, (id <= id0)%nat -> nth_error legs (id0 - id) = Some o -> lo_contact o = true -> lc_map c id0 = None ->
  In (id0, lo_pos o, kin_cov c o) (added c id legs).
Proof.
  induction legs as [|g legs IH]; intros id id0 o H1 H2 H3 H4.
  - destruct (id0 - id)%nat; discriminate.
  - cbn [added]. apply in_app_iff. destruct (Nat.eq_dec id0 id) as [->|Hne].
    + rewrite Nat.sub_diag in H2. injection H2 as ->. left. rewrite H3, H4. left; auto.
    + right. apply IH; auto; [lia|]. replace (id0 - id)%nat with (S (id0 - S id)) in H2 by lia. auto.
Qed.
Lemma added_nodup c : forall legs id, NoDup (map nid (added c id legs)).
Proof.
  induction legs as [|g legs IH]; intros id; cbn [added]; [constructor|]. rewrite map_app.
  destruct (lo_contact g), (lc_map c id) eqn:Em; cbn [map app]; auto. constructor; auto.
  rewrite added_spec. intros (o & H & _). unfold nid in H. cbn [fst] in H. lia.
Qed.
Lemma added_cov c : forall legs id n, In n (added c id legs) -> exists o, snd n = kin_cov c o.
Proof.
  induction legs as [|g legs IH]; intros id n; cbn [added]; [intros []|]. intros H. apply in_app_iff in H. destruct H as [H|H]; [|eauto].
  destruct (lo_contact g), (lc_map c id); cbn in H; try tauto. destruct H as [<-|[]]. exists g. reflexivity.
Qed.
Lemma feet_cov c h : forall legs id f, In f (feet c h id legs) -> exists o, ft_cov f = kin_cov c o.
Proof.
  induction legs as [|g legs IH]; intros id f; cbn [feet]; [intros []|]. intros H. apply in_app_iff in H. destruct H as [H|H]; [|eauto].
  destruct (lo_contact g), (contact_of c h id); cbn in H; try tauto. destruct H as [<-|[]]. exists g. reflexivity.
Qed.
Lemma vdot_tr A u : vdot u ((A *m mtr A) *v u) = vdot (mtr A *v u) (mtr A *v u).
Proof. destruct A, u; unfold vdot; cbn; ring. Qed.
Lemma vdot_self u : 0 <= vdot u u. Proof. destruct u; unfold vdot; cbn. nra. Qed.
Lemma vdot_pos u : u <> vzero -> 0 < vdot u u.
Proof.
  intros H. destruct u as [a b c]; unfold vdot; cbn. pose proof (Rle_0_sqr a) as A. pose proof (Rle_0_sqr b) as B. pose proof (Rle_0_sqr c) as C. unfold Rsqr in *.
  destruct (Req_dec (a * a + b * b + c * c) 0) as [E|E]; [|lra]. exfalso. apply H.
  assert (a * a = 0) as A0 by lra. assert (b * b = 0) as B0 by lra. assert (c * c = 0) as C0 by lra.
  apply Rmult_integral in A0, B0, C0. destruct A0, B0, C0; subst; reflexivity.
Qed.
Lemma kin_cov_pd c o : lc_kin_std c <> 0 -> pd (ofM3 (kin_cov c o)).
Proof.
  intros Hk. apply pd_ofM3. split.
  - unfold kin_cov. generalize (lo_J o), (lc_enc_std c), (lc_kin_std c). intros. ring3.
  - intros u Hu. unfold kin_cov.
    replace (vdot u (((lc_enc_std c ^ 2) *ms (lo_J o *m mtr (lo_J o)) +m (lc_kin_std c ^ 2) *ms mid) *v u))
      with (lc_enc_std c ^ 2 * vdot u ((lo_J o *m mtr (lo_J o)) *v u) + lc_kin_std c ^ 2 * vdot u u).
    + rewrite vdot_tr. pose proof (vdot_self (mtr (lo_J o) *v u)). pose proof (vdot_pos u Hu).
      assert (0 < lc_kin_std c ^ 2) by nra. assert (0 <= lc_enc_std c ^ 2) by nra. nra.
    + destruct (lo_J o), u; unfold vdot; cbn. ring.
Qed.
Lemma leg_N_bdiag X o : leg_N X o = bdiag (length o) (fun b => rot X *m ft_cov (nth b o no_foot) *m mtr (rot X)).
Proof.
  apply mat_ext; [reflexivity|reflexivity|]. intros i j Hi Hj. unfold leg_N in *. mdim. rewrite ent_mk by auto.
  pose proof (Nat.mod_upper_bound i 3). pose proof (Nat.mod_upper_bound j 3).
  transitivity (ent (bdiag (length o) (fun b => rot X *m ft_cov (nth b o no_foot) *m mtr (rot X))) (3 * (i / 3) + i mod 3) (3 * (j / 3) + j mod 3)).
  - rewrite ent_bdiag; auto; try lia; try (apply Nat.div_lt_upper_bound; lia).
  - rewrite <- !Nat.div_mod by lia. reflexivity.
Qed.
Lemma leg_N_pd c h X legs : SO3 (rot X) -> lc_kin_std c <> 0 -> pd (leg_N X (feet c h 0 legs)).
Proof.
  intros HR Hk. rewrite leg_N_bdiag. apply pd_bdiag. intros b Hb. apply pd_rot; auto.
  destruct (feet_cov c h legs 0 (nth b (feet c h 0 legs) no_foot)) as [o ->]; [apply nth_In; auto|]. apply kin_cov_pd; auto.
Qed.
Lemma leg_measurement K X o : measurement K (3 * length o) (leg_Z X o) (leg_H K o) (leg_N X o).
Proof. repeat split. Qed.

Lemma tracks_meta c h s s1 ids : tracks c h s ids -> wf (2 + length ids) s1 -> scmap s1 = scmap s -> stype s1 = stype s -> sQc s1 = sQc s -> tracks c h s1 ids.
Proof.
  intros [[W HK Hty HQ1 HQ2] Hc Hn Hh Hin Hinj Honto] W1 E1 E2 E3. split; auto; try congruence. split; auto; congruence.
Qed.
Lemma corrected_tracks c h m s s1 ids : tracks c h s ids -> leg_corrected (2 + length ids) c h m s s1 ->
  tracks c h s1 ids /\ same_meta (set_time s (lm_t m)) s1.
Proof.
  intros T. pose proof (tr_wf _ _ _ _ T) as [W HK Hty HQ1 HQ2].
  assert (wf (2 + length ids) (set_time s (lm_t m))) as W' by (destruct W; split; auto).
  unfold leg_corrected. destruct (Nat.eqb_spec (length (feet c h 0 (lm_legs m))) 0).
  - intros ->. split; [|repeat split]. apply (tracks_meta c h s); auto.
  - intros E. destruct (thm_right_group _ _ _ _ _ _ _ _ W' (leg_measurement _ _ _) E) as [W1 M]. split; [|exact M].
    destruct M as (M1 & M2 & M3 & M4 & M5 & M6 & M7 & M8). apply (tracks_meta c h s); auto.
Qed.
(** what leg_update does, in terms of the Kalman update and the two loops *)
Lemma leg_update_eq c h m s ids : tracks c h s ids ->
  leg_update c h m s =
  let o := feet c h 0 (lm_legs m) in
  let* s1 := if Nat.eqb (length o) 0 then Ok (set_time s (lm_t m))
             else CorrectRightInvariant (leg_Z (sX s) o) (leg_H (2 + length ids) o) (leg_N (sX s) o) (set_time s (lm_t m)) (lc_err c) in
  let* '(h, s, mp) := foldM remove_leg (h, s1, lc_map c) (removed c 0 (lm_legs m)) in
  let* '(h, s, mp, _) := foldM (add_leg c) (h, s, mp, sP s) (added c 0 (lm_legs m)) in
  Ok (lc_set_map c mp, h, s).
Proof.
  intros T. unfold leg_update.
  assert (tracks c h (set_time s (lm_t m)) ids) as T'.
  { apply (tracks_meta c h s); auto. destruct (tr_wf _ _ _ _ T) as [[] _ _ _ _]. split; auto. }
  pose proof (scan_ok c h _ ids T' (lm_legs m) 0%nat [] [] []) as ES. cbn [leg_Hacc app] in ES.
  replace (leg_N (sX (set_time s (lm_t m))) []) with (mO 0 0) in ES by (apply mat_ext; try reflexivity; intros; cbn in *; lia).
  replace (leg_Z (sX (set_time s (lm_t m))) []) with (mO 0 1) in ES by (apply mat_ext; try reflexivity; intros; cbn in *; lia).
  rewrite ES. cbn [bind]. cbv zeta. change (sX (set_time s (lm_t m))) with (sX s).
  set (o := feet c h 0 (lm_legs m)). change (nr (leg_Z (sX s) o)) with (3 * length o)%nat.
  change (stype (set_time s (lm_t m))) with (stype s). rewrite (wp_type _ _ (tr_wf _ _ _ _ T)).
  destruct o as [|f o']; [reflexivity|]. cbn [length Nat.eqb leg_Hacc]. reflexivity.
Qed.
Lemma contact_map_ext c m m' h s ids : (forall x, m x = m' x) -> tracks (lc_set_map c m) h s ids -> tracks (lc_set_map c m') h s ids.
Proof.
  intros H [A1 A2 A3 A4 A5 A6 A7]. cbn [lc_map lc_set_map] in *. split; auto; cbn [lc_map lc_set_map].
  - intros id a. rewrite <- H. eauto.
  - intros i j a. rewrite <- !H. eauto.
  - intros a Ha. destruct (A7 a Ha) as [id E]. exists id. rewrite <- H. auto.
Qed.
Lemma leg_update_ok c h m s ids s1 : tracks c h s ids -> leg_corrected (2 + length ids) c h m s s1 ->
  exists h' s' m' ids', leg_update c h m s = Ok (lc_set_map c m', h', s') /\
    tracks (lc_set_map c m') h' s' ids' /\ leg_booked c h m s1 (lc_set_map c m') h' s' /\
    (lc_kin_std c <> 0 -> psd (sP s1) -> psd (sP s')) /\
    (psd (ofM3 (lc_contact_cov c)) -> contact_noise (2 + length ids) (sQc s1) -> contact_noise (2 + length ids') (sQc s')).
Proof.
  intros T HC. destruct (corrected_tracks c h m s s1 ids T HC) as [T1 M].
  rewrite (leg_update_eq c h m s ids T). cbv zeta.
  set (o := feet c h 0 (lm_legs m)).
  assert ((if Nat.eqb (length o) 0 then Ok (set_time s (lm_t m))
             else CorrectRightInvariant (leg_Z (sX s) o) (leg_H (2 + length ids) o) (leg_N (sX s) o) (set_time s (lm_t m)) (lc_err c)) = Ok s1) as ->.
  { red in HC. fold o in HC. destruct (Nat.eqb (length o) 0); congruence. }
  cbn [bind].
  destruct (remove_legs_carried c (removed c 0 (lm_legs m)) h s1 ids T1 (removed_nodup _ _ _)) as (h2 & s2 & m2 & ids2 & F1 & F2 & F3 & F4 & F5 & F6 & F7).
  { intros id Hid. apply removed_spec in Hid. destruct Hid as (? & _ & _ & _ & H). exact H. }
  rewrite F1. cbn [bind].
  assert (forall id, In id (map nid (added c 0 (lm_legs m))) -> lc_map (lc_set_map c m2) id = None) as Hnew.
  { intros id Hid. apply added_spec in Hid. destruct Hid as (? & _ & _ & _ & H). cbn [lc_map lc_set_map]. rewrite F2. unfold mupds. rewrite H. destruct (in_dec _ _ _); reflexivity. }
  destruct (add_legs_ok (lc_set_map c m2) (added c 0 (lm_legs m)) h2 s2 ids2 F3 (added_nodup _ _ _) Hnew)
    as (h3 & s3 & m3 & ids3 & G1 & G2 & G3 & G4 & G5 & G6 & G7 & G8 & _).
  change (add_leg (lc_set_map c m2)) with (add_leg c) in G1. cbn [lc_map lc_set_map] in G1, G2. rewrite G1. cbn [bind].
  change (lc_set_map (lc_set_map c m2) m3) with (lc_set_map c m3) in *. change (lc_err (lc_set_map c m2)) with (lc_err c) in *.
  exists h3, s3, m3, ids3. split; [reflexivity|]. split; [exact G3|].
  assert (forall id, m3 id <> None <-> tracked_after c m id) as HT.
  { intros id. rewrite G2, F2, added_spec. unfold tracked_after, tracked, mupds.
    assert (In id (removed c 0 (lm_legs m)) <-> exists o, nth_error (lm_legs m) id = Some o /\ lo_contact o = false /\ lc_map c id <> None) as HRm.
    { rewrite removed_spec, Nat.sub_0_r. split; intros (x & H); exists x; intuition lia. }
    rewrite Nat.sub_0_r. destruct (in_dec Nat.eq_dec id (removed c 0 (lm_legs m))) as [Hi|Hi].
    - pose proof (proj1 HRm Hi) as (x & E1 & E2 & E3). rewrite E1. split; [|congruence]. intros [|(y & _ & E4 & E5 & E6)]; congruence.
    - destruct (nth_error (lm_legs m) id) as [x|] eqn:Ex.
      + split.
        * intros [H|(y & _ & [= <-] & E5 & E6)]; auto. destruct (lo_contact x) eqn:Ec; auto. exfalso. apply Hi, HRm. eauto.
        * intros Ec. destruct (lc_map c id) eqn:Em; [left; discriminate|right]. exists x. split; [lia|auto].
      + split; auto. intros [|(y & _ & [=] & _)]; auto. }
  pose proof (kept_trans _ _ _ F4 G4) as HK.
  split; [|split].
  - split.
    + exact HT.
    + eapply carried_trans; [eapply carried_weak; [|exact F7]|eapply carried_weak; [|exact G7]].
      * cbn. unfold tracked. cbn [lc_map lc_set_map]. intros id [H1 H2] Hi. apply removed_spec in Hi. destruct Hi as (x & _ & E1 & E2 & _). rewrite Nat.sub_0_r in E1.
        apply HT in H2. unfold tracked_after in H2. rewrite E1 in H2. congruence.
      * cbn. intros id [H1 H2] Hi. apply added_spec in Hi. destruct Hi as (x & _ & E1 & E2 & E3). apply H1. exact E3.
    + intros id x Ex Ec Hn. apply G8. apply added_in; auto; [lia|rewrite Nat.sub_0_r; auto|]. destruct (lc_map c id) eqn:Em; auto. exfalso. apply Hn. red. congruence.
    + rewrite (kp_R _ _ HK), !(kp_X _ _ HK) by lia. rewrite (kp_T _ _ HK). auto.
    + split; apply HK.
    + split; [apply HK|]. split; [apply HK|]. split; [apply HK|]. rewrite (wp_type _ _ (tr_wf _ _ _ _ G3)), (wp_type _ _ (tr_wf _ _ _ _ T1)). reflexivity.
  - intros Hk HP. apply G5; [|apply F5; auto]. intros n Hn. destruct (added_cov _ _ _ _ Hn) as [x ->]. apply pd_psd, kin_cov_pd; auto.
  - intros HN HQ. apply G6; auto.
Qed.
Lemma leg_corrected_ex c h m s ids : tracks c h s ids -> psd (sP s) -> leg_noise_ok c ->
  exists s1, leg_corrected (2 + length ids) c h m s s1 /\ psd (sP s1).
Proof.
  intros T HP [Hk _]. pose proof (tr_wf _ _ _ _ T) as [W HK Hty HQ1 HQ2].
  assert (wf (2 + length ids) (set_time s (lm_t m))) as W' by (destruct W; split; auto).
  unfold leg_corrected. destruct (Nat.eqb _ 0); [eexists; split; [reflexivity|exact HP]|].
  apply (thm_right_psd _ _ _ _ _ _ _ W' (leg_measurement _ _ _)); [exact HP|]. apply leg_N_pd; auto. apply W.
Qed.
Lemma thm_leg_update c h m s ids : tracks c h s ids -> psd (sP s) -> leg_noise_ok c ->
  exists s1 c' h' s' ids', leg_update c h m s = Ok (c', h', s') /\
    leg_corrected (2 + length ids) c h m s s1 /\ leg_booked c h m s1 c' h' s' /\
    tracks c' h' s' ids' /\ psd (sP s').
Proof.
  intros T HP HN. destruct (leg_corrected_ex c h m s ids T HP HN) as (s1 & E1 & HP1).
  destruct (leg_update_ok c h m s ids s1 T E1) as (h' & s' & m' & ids' & A1 & A2 & A3 & A4 & A5).
  exists s1, (lc_set_map c m'), h', s', ids'. split; [exact A1|]. split; [exact E1|]. split; [exact A3|]. split; [exact A2|]. apply A4; auto. apply HN.
Qed.
Lemma leg_update_inv c h m s ids c' h' s' : tracks c h s ids -> leg_update c h m s = Ok (c', h', s') ->
  exists s1 ids' m', c' = lc_set_map c m' /\ leg_corrected (2 + length ids) c h m s s1 /\ leg_booked c h m s1 c' h' s' /\ tracks c' h' s' ids' /\
    same_meta (set_time s (lm_t m)) s1 /\
    (psd (ofM3 (lc_contact_cov c)) -> contact_noise (2 + length ids) (sQc s) -> contact_noise (2 + length ids') (sQc s')).
Proof.
  intros T E. pose proof E as E0. rewrite (leg_update_eq c h m s ids T) in E0. cbv zeta in E0. apply bind_inv in E0. destruct E0 as (s1 & E1 & _).
  assert (leg_corrected (2 + length ids) c h m s s1) as HC. { red. destruct (Nat.eqb _ 0); congruence. }
  destruct (leg_update_ok c h m s ids s1 T HC) as (h2 & s2 & m2 & ids2 & A1 & A2 & A3 & A4 & A5).
  rewrite E in A1. injection A1 as -> -> ->. destruct (corrected_tracks c h m s s1 ids T HC) as [_ M].
  exists s1, ids2, m2. split; [reflexivity|]. split; [exact HC|]. split; [exact A3|]. split; [exact A2|]. split; [exact M|]. intros HN HQ. apply A5; auto. destruct M as (_ & _ & _ & _ & -> & _). exact HQ.
Qed.
