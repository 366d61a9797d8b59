(** Proofs: propagation and corrections in the two error conventions. *)
From Coq Require Import Reals ZArith List Bool Lia Lra.
From Verif Require Import Res Vec3 Mat LieGroup MatInv Psd Spec SpecState LieSO3 LieSEK LieThms RobotState StateProofs StateHist StateMisc Inekf SpecFilter
  InekfProofs InekfThms Imu Propagation SpecProp Blk PsdBlk PropagationProofs PropagationThms PropagationLog Queue VelCorr LegCorr SpecCorr ImuNeg VelThms LegThms LegAdd LegLoop LegUpd LegHist ConvLeg.
Import ListNotations.
Local Open Scope R_scope.

Definition rmap {A B} (f : A -> B) (x : res A) : res B := match x with Ok a => Ok (f a) | Fail e => Fail e end.
(** the state in right-invariant coordinates *)
Definition in_right (s : rstate) : rstate := as_right (dimX s - 3) s.
Lemma in_right_K K s : wf K s -> in_right s = as_right K s.
Proof. intros [[X1 X2 _ _] _ _ _ _]. unfold in_right, dimX. rewrite X2. replace (3 + K - 3)%nat with K by lia. reflexivity. Qed.
Lemma as_right_wf K s : wf K s -> wf K (as_right K s).
Proof. intros [HX H1 H2 H3 H4]. split; auto; unfold as_right; cbn [sP set_P]; mdim. Qed.
Lemma in_right_wfp K s : wfp K s -> wfp K (in_right s).
Proof. intros W. rewrite (in_right_K K) by apply W. apply as_right_wfp. exact W. Qed.
Lemma in_right_time s t : in_right (set_time s t) = set_time (in_right s) t. Proof. reflexivity. Qed.

(** ** the Kalman update *)
Lemma CR_conv K m Z H N s : wf K s -> measurement K m Z H N ->
  CorrectRightInvariant Z H N (in_right s) RightInvariant = rmap in_right (CorrectRightInvariant Z H N s LeftInvariant).
Proof.
  intros W M. rewrite (in_right_K K s W). rewrite (CorrectRight_eq K m) by (auto using as_right_wf). rewrite (CorrectRight_eq K m Z H N s) by auto.
  cbv zeta. cbn [from_right]. change (sX (as_right K s)) with (sX s). change (sen (as_right K s)) with (sen s). change (sTheta (as_right K s)) with (sTheta s).
  pose proof W as [HX HT1 HT2 HP1 HP2].
  assert (to_right K RightInvariant (sX s) (work_cov K (sen s) (sP (as_right K s))) = to_right K LeftInvariant (sX s) (work_cov K (sen s) (sP s))) as ->.
  { rewrite (to_right_work K LeftInvariant) by auto. cbn [to_right]. unfold as_right. cbn [sP set_P]. rewrite L2R_AdB. reflexivity. }
  set (P1 := to_right K LeftInvariant (sX s) (work_cov K (sen s) (sP s))).
  assert (nr P1 = (9 + 3 * K)%nat /\ nc P1 = (9 + 3 * K)%nat) as [D1 D2].
  { apply to_right_dim; destruct (work_cov_dim K (sen s) (sP s)); congruence. }
  destruct (minv (Sof P1 H N)) as [Si|] eqn:ES; [|reflexivity]. cbn [rmap]. f_equal.
  set (J := mask_diag (yawm K) c4 (jos (9 + 3 * K) P1 H N (Gof P1 H Si))).
  set (X' := dX_of K (Gof P1 H Si) Z *M sX s).
  assert (SEK K X') as HX'.
  { pose proof (CorrectRight_eq K m Z H N s LeftInvariant W M) as E. cbv zeta in E. fold P1 in E. rewrite ES in E.
    destruct (thm_right_group _ _ _ _ _ _ _ _ W M E) as [[HX' _ _ _ _] _]. exact HX'. }
  unfold in_right, as_right, dimX. cbn [sX sP set_P set_theta set_X]. rewrite (sek_cols _ _ HX'). replace (3 + K - 3)%nat with K by lia.
  rewrite !L2R_AdB. fold X' J.
  pose proof (to_from_right K LeftInvariant X' J HX') as E. cbn [to_right from_right] in E |- *. rewrite E; [reflexivity| |].
  - unfold J, jos. mdim.
  - unfold J, jos. mdim.
Qed.

(** ** velocity correction *)
Definition vc_with (c : vel_corr) (e : error_type) : vel_corr := mkVC (vc_queue c) e (vc_cov c) (vc_thr c) (vc_R c) (vc_scale c).
Lemma vel_update_conv K c m s : wfp K s -> vc_err c = LeftInvariant ->
  vel_update (vc_with c RightInvariant) m (in_right s) = rmap in_right (vel_update c m s).
Proof.
  intros W E. rewrite (vel_update_eq K) by (apply in_right_wfp; auto). rewrite (vel_update_eq K c) by auto. rewrite E.
  rewrite <- in_right_time. cbn [vc_err vc_with vc_R vc_scale vc_cov].
  change (vel_innovation (in_right s)) with (vel_innovation s). change (vel_N (in_right s)) with (vel_N s).
  apply (CR_conv K 3); [destruct W as [[] ? ? ? ?]; split; auto|apply vel_measurement].
Qed.
Lemma vel_Correct_conv K c s sched : wfp K s -> vc_err c = LeftInvariant ->
  vel_Correct (vc_with c RightInvariant) (in_right s) sched =
  rmap (fun '(b, c', s') => (b, vc_with c' RightInvariant, in_right s')) (vel_Correct c s sched).
Proof.
  intros W E. unfold vel_Correct. change (vc_queue (vc_with c RightInvariant)) with (vc_queue c).
  change (stprop (in_right s)) with (stprop s). change (get_propagate_time (in_right s)) with (get_propagate_time s).
  change (vc_thr (vc_with c RightInvariant)) with (vc_thr c).
  destruct (vc_queue c ++ hd_batch sched) as [|m q]; [reflexivity|].
  destruct (get_propagate_time s) as [tp|]; [|reflexivity]. cbn [bind].
  destruct (not_past tp (vm_t m)).
  - reflexivity.
  - destruct (if too_old (vc_thr c) tp (vm_t m) then _ else _) as [[r q'] bs]. destruct r as [m'|]; [|reflexivity].
    rewrite (vel_update_conv K) by auto. destruct (vel_update c m' s); reflexivity.
Qed.

(** ** propagation *)
Lemma Propagate_conv K ip s t0 : wfp K s -> stprop s = Some t0 -> ip_err ip = LeftInvariant ->
  Propagate (set_err ip RightInvariant) (in_right s) = rmap (fun '(b, ip', s') => (b, set_err ip' RightInvariant, in_right s')) (Propagate ip s).
Proof.
  intros W Ht E. assert (set_err ip LeftInvariant = ip) as E0 by (destruct ip; cbn in *; subst; reflexivity).
  unfold Propagate. cbn [ip_queue set_err]. destruct (ip_queue ip) as [|x q]; [reflexivity|]. cbn [ip_prev set_err].
  destruct (ip_prev ip) as [m|]; [|reflexivity]. cbn [of_opt bind].
  set (ip1 := set_prev (set_queue ip q) x).
  change (set_prev (set_queue (set_err ip RightInvariant) q) x) with (set_err ip1 RightInvariant).
  assert (set_err ip1 LeftInvariant = ip1) as E1. { unfold ip1. rewrite <- E0 at 2. reflexivity. }
  pose proof (step_eq K ip1 m s t0 W Ht) as ES. cbv zeta in ES. rewrite ES. cbn [bind rmap].
  match type of ES with _ = Ok ?x => set (s' := x) in * end. rewrite (in_right_K K s) by apply W.
  rewrite (step_conv K ip1 m s t0 s' W Ht) by (rewrite E1; exact ES). cbn [bind].
  destruct (step_wfp K ip1 m s t0 s' W Ht ES) as (W' & _). rewrite (in_right_K K s') by apply W'. reflexivity.
Qed.

(** ** contacts *)
Definition lc_with (c : leg_corr) (e : error_type) : leg_corr := mkLC (lc_queue c) e (lc_enc_std c) (lc_kin_std c) (lc_contact_cov c) (lc_thr c) (lc_map c).
Lemma tracks_conv c h s ids : tracks c h s ids -> tracks c h (in_right s) ids.
Proof.
  intros T. apply (tracks_meta c h s); auto. rewrite (in_right_K (2 + length ids)) by apply T. apply as_right_wf, T.
Qed.
Lemma tracks_with c h s ids e : tracks c h s ids -> tracks (lc_with c e) h s ids.
Proof. intros [A B C D E F G]. split; auto. Qed.
Lemma del_P h s P i h1 s1 h2 s2 : del_aug_state h s i = Ok (h1, s1) -> del_aug_state h (set_P s P) i = Ok (h2, s2) -> h2 = h1 /\ s2 = set_P s1 (sP s2).
Proof.
  unfold del_aug_state, dimX. cbn [scmap sX set_P]. intros H1 H2.
  apply bind_inv in H1. destruct H1 as ([h0 m0] & E0 & H1). rewrite E0 in H2. cbn [bind] in H2.
  apply bind_inv in H1. destruct H1 as ([] & E1 & H1). rewrite E1 in H2. cbn [bind] in H2.
  cbn [sX set_cmap set_P] in *.
  apply bind_inv in H1. destruct H1 as (X0 & E2 & H1). rewrite E2 in H2. cbn [bind] in H2.
  unfold del_aug_cov, del_aug_noise_cov in *. cbn [sP set_X set_cmap set_P] in *.
  apply bind_inv in H1. destruct H1 as (s3 & E3 & H1). apply bind_inv in E3. destruct E3 as (k & E3 & E4). rewrite E3 in H2. cbn [bind] in H2.
  apply bind_inv in E4. destruct E4 as (P3 & E4 & E5). injection E5 as <-.
  apply bind_inv in H2. destruct H2 as (s4 & E5 & H2). apply bind_inv in E5. destruct E5 as (P4 & E5 & E6). injection E6 as <-.
  rewrite E3 in H1. cbn [bind] in H1, H2. cbn [sQc set_P set_X set_cmap] in *.
  apply bind_inv in H1. destruct H1 as (s5 & H1 & H1'). apply bind_inv in H1. destruct H1 as (Q & E6 & H1). injection H1 as <-. injection H1' as <- <-.
  rewrite E6 in H2. cbn [bind] in H2. injection H2 as <- <-. split; reflexivity.
Qed.
Lemma set_P_eta s P : P = sP s -> set_P s P = s. Proof. intros ->. destruct s; reflexivity. Qed.
Lemma remove_conv c h s ids id a : tracks c h s ids -> lc_map c id = Some a ->
  exists h' s', remove_leg (h, s, lc_map c) id = Ok (h', s', mupd (lc_map c) id None) /\
    remove_leg (h, in_right s, lc_map c) id = Ok (h', in_right s', mupd (lc_map c) id None) /\
    tracks (lc_set_map c (mupd (lc_map c) id None)) h' s' (remove_nth (age a ids) ids).
Proof.
  intros T E. destruct (remove_leg_ok c h s ids id a T E) as (h1 & s1 & R1 & T1 & _ & P1 & X1 & _).
  destruct (remove_leg_ok c h (in_right s) ids id a (tracks_conv _ _ _ _ T) E) as (h2 & s2 & R2 & _ & _ & P2 & X2 & _).
  exists h1, s1. split; [exact R1|]. split; [|exact T1].
  assert (h2 = h1 /\ s2 = set_P s1 (sP s2)) as [-> E2].
  { unfold remove_leg in R1, R2. apply bind_inv in R1. destruct R1 as (z & Ez & R1). rewrite Ez in R2. cbn [bind] in R2.
    apply bind_inv in R1. destruct R1 as (i & Ei & R1). rewrite Ei in R2. cbn [bind] in R2.
    apply bind_inv in R1. destruct R1 as ([h3 s3] & R1 & R1'). injection R1' as <- <-.
    apply bind_inv in R2. destruct R2 as ([h4 s4] & R2 & R2'). injection R2' as <- <-.
    exact (del_P _ _ _ _ _ _ _ _ R1 R2). }
  rewrite R2. repeat f_equal. rewrite E2. destruct (tracks_contact c h s ids id a T E) as (_ & HA & _).
  assert (wf (2 + (length ids - 1)) s1) as W1. { pose proof (tr_wf _ _ _ _ T1) as W1. rewrite remove_nth_length in W1 by auto. apply W1. }
  rewrite (in_right_K _ s1 W1). unfold as_right. f_equal.
  rewrite P2, (in_right_K (2 + length ids)) by apply T. unfold as_right. cbn [sP set_P]. rewrite P1, X1.
  replace (2 + length ids)%nat with (S (2 + (length ids - 1))) by lia.
  replace (3 * (3 + age a ids))%nat with (3 * (1 + (2 + age a ids)))%nat by lia. replace (5 + age a ids)%nat with (3 + (2 + age a ids))%nat by lia.
  destruct (tr_wf _ _ _ _ T) as [[HX _ _ HP1 HP2] _ _ _ _].
  apply drop_conv; try (replace (S (2 + (length ids - 1))) with (2 + length ids)%nat by lia); auto. lia.
Qed.
Lemma removes_conv c : forall rem h s ids, tracks c h s ids -> NoDup rem -> (forall id, In id rem -> lc_map c id <> None) ->
  foldM remove_leg (h, in_right s, lc_map c) rem = rmap (fun '(h', s', m') => (h', in_right s', m')) (foldM remove_leg (h, s, lc_map c) rem).
Proof.
  intros rem. revert c. induction rem as [|id rem IH]; intros c h s ids T ND Hin; cbn [foldM]; [reflexivity|].
  inversion ND; subst. destruct (lc_map c id) as [a|] eqn:Ea; [|exfalso; apply (Hin id); [left; auto|auto]].
  destruct (remove_conv c h s ids id a T Ea) as (h1 & s1 & E1 & E2 & T1). rewrite E1, E2. cbn [bind].
  apply (IH (lc_set_map c (mupd (lc_map c) id None)) h1 s1 _ T1); auto.
  cbn [lc_map lc_set_map]. intros j Hj. unfold mupd. destruct (Nat.eqb_spec j id); [subst; tauto|]. apply Hin. right; auto.
Qed.
Lemma add_P s u P Pa Pb N p : add_aug_state (set_P s P) u Pb N p = rmap (fun '(s', i) => (set_P s' Pb, i)) (add_aug_state s u Pa N p).
Proof.
  unfold add_aug_state, dimX, dimQc, dimTheta. cbn [sX sTheta sQc set_P set_X].
  repeat (match goal with |- bind ?x _ = rmap _ (bind ?x _) => destruct x; [cbn [bind sX sTheta sQc set_P set_X]|reflexivity] end). reflexivity.
Qed.
Lemma add_conv c h s ids id pose cov : tracks c h s ids -> lc_map c id = None -> lc_err c = LeftInvariant ->
  exists h' s', add_leg c (h, s, lc_map c, sP s) (id, pose, cov) = Ok (h', s', mupd (lc_map c) id (Some (length h)), sP s') /\
    add_leg (lc_with c RightInvariant) (h, in_right s, lc_map c, sP (in_right s)) (id, pose, cov) = Ok (h', in_right s', mupd (lc_map c) id (Some (length h)), sP (in_right s')) /\
    tracks (lc_set_map c (mupd (lc_map c) id (Some (length h)))) h' s' (ids ++ [length h]).
Proof.
  intros T E He. destruct (add_leg_ok c h s ids id pose cov T E) as (h1 & s1 & R1 & T1 & _ & P1 & X1 & _).
  destruct (add_leg_ok (lc_with c RightInvariant) h (in_right s) ids id pose cov (tracks_with _ _ _ _ _ (tracks_conv _ _ _ _ T)) E) as (h2 & s2 & R2 & _ & _ & P2 & X2 & _).
  cbn [lc_map lc_with] in R2. exists h1, s1. split; [exact R1|]. split; [|exact T1].
  assert (h2 = h1 /\ s2 = set_P s1 (sP s2)) as [-> E2].
  { unfold add_leg in R1, R2. change (get_position (in_right s)) with (get_position s) in R2. change (get_rotation (in_right s)) with (get_rotation s) in R2.
    apply bind_inv in R1. destruct R1 as (p & Ep & R1). rewrite Ep in R2. cbn [bind] in R2.
    apply bind_inv in R1. destruct R1 as (r & Er & R1). rewrite Er in R2. cbn [bind] in R2.
    change (stype (in_right s)) with (stype s) in R2.
    apply bind_inv in R1. destruct R1 as ([F G] & _ & R1). apply bind_inv in R2. destruct R2 as ([F' G'] & _ & R2).
    do 5 (apply bind_inv in R1; destruct R1 as (? & _ & R1); apply bind_inv in R2; destruct R2 as (? & _ & R2)).
    cbn [heap_new] in R1, R2. change (dimX (in_right s)) with (dimX s) in R2. cbn [lc_contact_cov lc_with] in R2.
    apply bind_inv in R1. destruct R1 as ([s3 i] & R1 & R1'). unfold in_right, as_right in R2.
    erewrite add_P in R2. rewrite R1 in R2. cbn [rmap bind] in R2.
    apply bind_inv in R1'. destruct R1' as (h3 & E3 & R1'). rewrite E3 in R2. cbn [bind] in R2.
    assert (h1 = h3 /\ s1 = s3) as [-> ->] by (injection R1'; auto).
    match type of R2 with Ok (?a, ?b, _, _) = _ => assert (h2 = a /\ s2 = b) as [-> ->] by (injection R2; auto) end. split; reflexivity. }
  assert (wf (2 + length (ids ++ [length h])) s1) as W1 by apply T1. rewrite len_snoc in W1.
  assert (sP s2 = sP (in_right s1)) as EP.
  { rewrite P2. rewrite (in_right_K _ s1 W1), (in_right_K (2 + length ids)) by apply T. unfold as_right. cbn [sP set_P sX lc_err lc_with]. rewrite P1, He.
    replace (2 + S (length ids))%nat with (S (2 + length ids)) by lia. rewrite X1.
    destruct (tr_wf _ _ _ _ T) as [[HX _ _ HP1 HP2] HK _ _ _]. apply aug_conv; auto. }
  rewrite R2. rewrite E2, EP. unfold in_right, as_right. reflexivity.
Qed.
Lemma adds_conv c : forall new h s ids, tracks c h s ids -> NoDup (map nid new) -> (forall id, In id (map nid new) -> lc_map c id = None) -> lc_err c = LeftInvariant ->
  foldM (add_leg (lc_with c RightInvariant)) (h, in_right s, lc_map c, sP (in_right s)) new =
  rmap (fun '(h', s', m', P') => (h', in_right s', m', sP (in_right s'))) (foldM (add_leg c) (h, s, lc_map c, sP s) new).
Proof.
  intros new. revert c. induction new as [|[[id f] N] new IH]; intros c h s ids T ND Hin He; cbn [foldM]; [reflexivity|].
  cbn [map nid fst] in ND, Hin. inversion ND; subst.
  destruct (add_conv c h s ids id f N T (Hin id (or_introl eq_refl)) He) as (h1 & s1 & E1 & E2 & T1). rewrite E1, E2. cbn [bind].
  apply (IH (lc_set_map c (mupd (lc_map c) id (Some (length h)))) h1 s1 _ T1); auto.
  cbn [lc_map lc_set_map]. intros j Hj. unfold mupd. destruct (Nat.eqb_spec j id) as [->|]; [exfalso; auto|]. apply Hin. right; auto.
Qed.
(** one leg measurement *)
Lemma leg_update_conv c h m s ids : tracks c h s ids -> psd (sP s) -> leg_noise_ok c -> lc_err c = LeftInvariant ->
  leg_update (lc_with c RightInvariant) h m (in_right s) =
  rmap (fun '(c', h', s') => (lc_with c' RightInvariant, h', in_right s')) (leg_update c h m s).
Proof.
  intros T HP HN He. rewrite (leg_update_eq c h m s ids T). rewrite (leg_update_eq _ h m _ ids (tracks_with _ _ _ _ RightInvariant (tracks_conv _ _ _ _ T))).
  cbv zeta. cbn [lc_err lc_with lc_map].
  assert (forall legs id, feet (lc_with c RightInvariant) h id legs = feet c h id legs) as Ef.
  { induction legs as [|g legs IH]; intros id; cbn [feet]; [reflexivity|]. rewrite IH. reflexivity. }
  assert (forall legs id, removed (lc_with c RightInvariant) id legs = removed c id legs) as Er.
  { induction legs as [|g legs IH]; intros id; cbn [removed]; [reflexivity|]. rewrite IH. reflexivity. }
  assert (forall legs id, added (lc_with c RightInvariant) id legs = added c id legs) as Ea.
  { induction legs as [|g legs IH]; intros id; cbn [added]; [reflexivity|]. rewrite IH. reflexivity. }
  rewrite Ef, Er, Ea, He. change (sX (in_right s)) with (sX s). rewrite <- in_right_time.
  destruct (leg_corrected_ex c h m s ids T HP HN) as (s1 & HC & HP1). destruct (corrected_tracks c h m s s1 ids T HC) as [T1 _].
  set (o := feet c h 0 (lm_legs m)) in *.
  assert (wf (2 + length ids) (set_time s (lm_t m))) as W' by (destruct (tr_wf _ _ _ _ T) as [[] _ _ _ _]; split; auto).
  assert ((if Nat.eqb (length o) 0 then Ok (in_right (set_time s (lm_t m))) else CorrectRightInvariant (leg_Z (sX s) o) (leg_H (2 + length ids) o) (leg_N (sX s) o) (in_right (set_time s (lm_t m))) RightInvariant) = Ok (in_right s1)) as ->.
  { red in HC. fold o in HC. destruct (Nat.eqb (length o) 0); [congruence|]. rewrite (CR_conv _ _ _ _ _ _ W' (leg_measurement _ _ _)). rewrite He in HC. rewrite HC. reflexivity. }
  assert ((if Nat.eqb (length o) 0 then Ok (set_time s (lm_t m)) else CorrectRightInvariant (leg_Z (sX s) o) (leg_H (2 + length ids) o) (leg_N (sX s) o) (set_time s (lm_t m)) LeftInvariant) = Ok s1) as ->.
  { red in HC. fold o in HC. destruct (Nat.eqb (length o) 0); [congruence|]. rewrite He in HC. exact HC. }
  cbn [bind]. rewrite (removes_conv c _ _ _ _ T1 (removed_nodup _ _ _)).
  2:{ intros id Hid. apply removed_spec in Hid. destruct Hid as (? & _ & _ & _ & H). exact H. }
  destruct (remove_legs_ok c (removed c 0 (lm_legs m)) h s1 ids T1 (removed_nodup _ _ _)) as (h2 & s2 & m2 & ids2 & F1 & F2 & F3 & _).
  { intros id Hid. apply removed_spec in Hid. destruct Hid as (? & _ & _ & _ & H). exact H. }
  rewrite F1. cbn [rmap bind].
  change (lc_with c RightInvariant) with (lc_with c RightInvariant).
  pose proof (adds_conv (lc_set_map c m2) (added c 0 (lm_legs m)) h2 s2 ids2 F3 (added_nodup _ _ _)) as EA.
  cbn [lc_map lc_set_map] in EA.
  change (add_leg (lc_with (lc_set_map c m2) RightInvariant)) with (add_leg (lc_with c RightInvariant)) in EA. change (add_leg (lc_set_map c m2)) with (add_leg c) in EA.
  rewrite EA; auto.
  - destruct (foldM (add_leg c) _ _) as [[[[? ?] ?] ?]|]; reflexivity.
  - intros id Hid. apply added_spec in Hid. destruct Hid as (? & _ & _ & _ & H). rewrite F2. unfold mupds. rewrite H. destruct (in_dec _ _ _); reflexivity.
Qed.
Lemma leg_Correct_conv c h s ids sched : tracks c h s ids -> psd (sP s) -> leg_noise_ok c -> lc_err c = LeftInvariant ->
  leg_Correct (lc_with c RightInvariant) h (in_right s) sched =
  rmap (fun '(b, c', h', s') => (b, lc_with c' RightInvariant, h', in_right s')) (leg_Correct c h s sched).
Proof.
  intros T HP HN He. unfold leg_Correct. change (lc_queue (lc_with c RightInvariant)) with (lc_queue c).
  change (get_propagate_time (in_right s)) with (get_propagate_time s). change (lc_thr (lc_with c RightInvariant)) with (lc_thr c).
  destruct (lc_queue c ++ hd_batch sched) as [|m q]; [reflexivity|].
  destruct (get_propagate_time s) as [tp|]; [|reflexivity]. cbn [bind].
  destruct (if too_old (lc_thr c) tp (lm_t m) then _ else _) as [[r q'] bs]. destruct r as [m'|]; [|reflexivity].
  change (lc_set_queue (lc_with c RightInvariant) (q' ++ concat bs)) with (lc_with (lc_set_queue c (q' ++ concat bs)) RightInvariant).
  rewrite (leg_update_conv _ h m' s ids (tracks_queue _ _ _ _ _ T) HP HN He). destruct (leg_update _ h m' s) as [[[? ?] ?]|]; reflexivity.
Qed.
