(** Proofs about LeggedKinematicsCorrection: new contacts and the whole update. *)
From Coq Require Import Reals ZArith List Bool Lia Lra.
From Verif Require Import Res Vec3 Mat LieGroup MatInv Psd Spec SpecState LieSO3 LieSEK LieThms RobotState StateProofs StateHist StateMisc Inekf SpecFilter
  InekfProofs InekfThms Imu Propagation SpecProp Blk PsdBlk PropagationProofs PropagationThms Queue VelCorr LegCorr SpecCorr ImuNeg VelThms.
Import ListNotations.
From Verif Require Import LegThms.
Import ListNotations.
Local Open Scope R_scope.

Lemma addX_sek K X u : SEK K X -> addX X (3 + K) u = sek (S K) (rot X) (fun k => if Nat.eqb k K then u else col X k).
Proof.
  intros HX. pose proof HX as [X1 X2 _ X4]. unfold addX. replace (3 + K + 1)%nat with (3 + S K)%nat by lia.
  assert (resize_like X (meye (3 + S K)) = sek (S K) (rot X) (fun k => if (k <? K)%nat then col X k else vzero)) as ->.
  { apply mat_ext; [mdim|mdim|]. intros i j Hi Hj. mdim.
    destruct (le_lt_dec 3 i) as [Li|Li].
    - rewrite ent_aff_bot by (mdim; lia).
      destruct (le_lt_dec (3 + K) i); [|destruct (le_lt_dec (3 + K) j)].
      + rewrite ent_resize_out, ent_eye by (mdim; lia). reflexivity.
      + rewrite ent_resize_out, ent_eye by (mdim; lia). reflexivity.
      + rewrite ent_resize_in by (mdim; lia). apply X4; lia.
    - destruct (le_lt_dec 3 j) as [Lj|Lj].
      + replace j with (3 + (j - 3))%nat by lia. rewrite ent_aff_col by lia.
        destruct (Nat.ltb_spec (j - 3) K).
        * rewrite ent_resize_in by (mdim; lia). unfold col. rewrite vget_getV3 by lia. reflexivity.
        * rewrite ent_resize_out, ent_eye by (mdim; lia). caseb. destruct i as [|[|[|]]]; try lia; reflexivity.
      + rewrite ent_aff_rot by lia. rewrite ent_resize_in by (mdim; lia). unfold rot. rewrite mget_getM3 by lia. reflexivity. }
  rewrite put_col_sek by lia. apply aff_ext. intros k Hk. caseb; auto. destruct (Nat.ltb_spec k K); [auto|lia].
Qed.
Lemma psd_Qa K Q Qa N : contact_noise K Q -> nr Q = (9 + 3 * K)%nat -> psd (ofM3 N) -> (2 <= K)%nat ->
  nr Qa = (12 + 3 * K)%nat -> nc Qa = (12 + 3 * K)%nat ->
  (forall i j, (i < 12 + 3 * K)%nat -> (j < 12 + 3 * K)%nat ->
        ent Qa i j =
        if inwin (3 + 3 * K) 3 i && inwin (3 + 3 * K) 3 j
        then mget N (i - (3 + 3 * K)) (j - (3 + 3 * K))
        else
          let src i := if (i <? 4 + K)%nat then Some i
                       else if (6 + 3 * K <=? i)%nat then Some (i - 3)%nat else None in
          match src i, src j with
          | Some a, Some b => ent Q a b
          | _, _ => 0
          end) -> contact_noise (S K) Qa.
Proof.
  intros [HQ HZ] HQ1 HN HK H1 H2 HE. pose proof (psd_sq _ HQ).
  set (src := fun i => if (i <? 4 + K)%nat then Some i else if (6 + 3 * K <=? i)%nat then Some (i - 3)%nat else None).
  set (win := fun i => if inwin (3 + 3 * K) 3 i then Some (i - (3 + 3 * K))%nat else None).
  assert (forall i j, (i < 12 + 3 * K)%nat -> (j < 12 + 3 * K)%nat -> ent Qa i j =
    if inwin (3 + 3 * K) 3 i && inwin (3 + 3 * K) 3 j then mget N (i - (3 + 3 * K)) (j - (3 + 3 * K))
    else match src i, src j with Some a, Some b => ent Q a b | _, _ => 0 end) as HE' by exact HE.
  split.
  - replace Qa with (reix (12 + 3 * K) src Q +M reix (12 + 3 * K) win (ofM3 N)).
    { apply psd_plus; [reflexivity| |]; apply psd_reix; auto. }
    apply mat_ext; [symmetry; auto|symmetry; auto|]. intros i j Hi Hj. change (i < 12 + 3 * K)%nat in Hi. change (j < 12 + 3 * K)%nat in Hj.
    rewrite ent_plus by reflexivity. rewrite HE' by auto. unfold reix. rewrite !ent_mk by auto. unfold win.
    assert (forall i, inwin (3 + 3 * K) 3 i = true -> src i = None /\ (i - (3 + 3 * K) < 3)%nat) as HW.
    { intros x. unfold inwin, src. destruct (Nat.leb_spec (3 + 3 * K) x), (Nat.ltb_spec x (3 + 3 * K + 3)); cbn [andb]; try discriminate. intros _.
      destruct (Nat.ltb_spec x (4 + K)), (Nat.leb_spec (6 + 3 * K) x); try lia. split; [auto|lia]. }
    destruct (inwin (3 + 3 * K) 3 i) eqn:Ei, (inwin (3 + 3 * K) 3 j) eqn:Ej; cbn [andb].
    + destruct (HW _ Ei) as [-> ?], (HW _ Ej) as [_ ?]. rewrite ent_ofM3 by auto. ring.
    + destruct (HW _ Ei) as [-> ?]. ring.
    + destruct (HW _ Ej) as [-> ?]. destruct (src i); ring.
    + destruct (src i), (src j); ring.
  - intros i j Hij. destruct (le_lt_dec (12 + 3 * K) i); [apply ent_zero; lia|]. destruct (le_lt_dec (12 + 3 * K) j); [apply ent_zero; lia|].
    rewrite HE by auto. unfold inwin.
    destruct (Nat.leb_spec (3 + 3 * K) i), (Nat.ltb_spec i (3 + 3 * K + 3)), (Nat.leb_spec (3 + 3 * K) j), (Nat.ltb_spec j (3 + 3 * K + 3)); cbn [andb]; try lia; cbv zeta;
    destruct (Nat.ltb_spec i (4 + K)), (Nat.leb_spec (6 + 3 * K) i), (Nat.ltb_spec j (4 + K)), (Nat.leb_spec (6 + 3 * K) j); try lia; auto; apply HZ; lia.
Qed.
Lemma nr_aug_cov e K X u c P : nr (aug_cov e K X u c P) = (12 + 3 * K)%nat. Proof. reflexivity. Qed.
Lemma nc_aug_cov e K X u c P : nc (aug_cov e K X u c P) = (12 + 3 * K)%nat. Proof. reflexivity. Qed.
Lemma psd_aug e K X u c P : nr P = (9 + 3 * K)%nat -> psd P -> psd (ofM3 c) -> psd (aug_cov e K X u c P).
Proof. intros H HP Hc. unfold aug_cov. apply psd_plus; [reflexivity| |]; apply psd_conj; auto. Qed.

Lemma add_leg_ok c h s ids id pose cov : tracks c h s ids -> lc_map c id = None ->
  let K := (2 + length ids)%nat in
  exists h' s', add_leg c (h, s, lc_map c, sP s) (id, pose, cov) = Ok (h', s', mupd (lc_map c) id (Some (length h)), sP s') /\
    tracks (lc_set_map c (mupd (lc_map c) id (Some (length h)))) h' s' (ids ++ [length h]) /\ kept s s' /\
    sP s' = aug_cov (lc_err c) K (sX s) pose cov (sP s) /\
    sX s' = sek (S K) (rot (sX s)) (fun k => if Nat.eqb k K then col (sX s) 1 +v rot (sX s) *v pose else col (sX s) k) /\
    (contact_noise K (sQc s) -> psd (ofM3 (lc_contact_cov c)) -> contact_noise (S K) (sQc s')).
Proof.
  intros T Em K. pose proof T as [W Hc Hn Hh Hin Hinj Honto]. pose proof W as [[HX HT1 HT2 HP1 HP2] HK Hty HQ1 HQ2]. pose proof HX as [X1 X2 _ _].
  unfold add_leg, get_position, get_rotation. rewrite cgetV3_ok by lia. cbn [bind]. rewrite cgetM3_ok by lia. cbn [bind]. rewrite Hty.
  fold K in W, HX, HP1, HP2, HK, HQ1, HQ2. rewrite (aug_F_G_ok _ K) by auto. cbn [bind].
  assert (nr (augF (lc_err c) K pose) = (12 + 3 * K)%nat /\ nc (augF (lc_err c) K pose) = (9 + 3 * K)%nat) as [F1 F2] by (split; reflexivity).
  assert (nr (augG (lc_err c) K (rot (sX s))) = (12 + 3 * K)%nat /\ nc (augG (lc_err c) K (rot (sX s))) = 3%nat) as [G1 G2] by (split; reflexivity).
  repeat (first [rewrite cmul_ok by (mdim; congruence) | rewrite cadd_ok by (mdim; congruence)]; cbn [bind]).
  fold (aug_cov (lc_err c) K (sX s) pose cov (sP s)). cbn [heap_new].
  set (u := getV3 (sX s) 0 4 +v getM3 (sX s) 0 0 *v pose).
  destruct (add_aug_state_ok h s ids u (aug_cov (lc_err c) K (sX s) pose cov (sP s)) (lc_contact_cov c) (tracks_st _ _ _ _ T)) as (Qa & s' & E & I & Q1 & Q2 & Q3 & ES).
  { rewrite nr_aug_cov, HT1. lia. } { rewrite nc_aug_cov, HT1. lia. }
  rewrite E. cbn [bind heap_set]. unfold dimX in *. rewrite X2 in *.
  rewrite check_true by (apply Nat.ltb_lt; rewrite app_length; cbn; lia). cbn [bind].
  assert (upd (h ++ [Z.of_nat (3 + K)]) (length h) (Z.of_nat (5 + length ids)) = h ++ [Z.of_nat (3 + K)]) as EU.
  { apply list_ext. intros i. rewrite nth_error_upd. destruct (Nat.eqb_spec (length h) i) as [<-|]; auto.
    rewrite nth_error_app2, Nat.sub_diag by lia. cbn [nth_error]. do 2 f_equal. }
  fold K. fold K in I, E, ES. rewrite EU.
  exists (h ++ [Z.of_nat (3 + K)]), s'. subst s'. cbn [sP set_cmap set_Qc set_P].
  split; [reflexivity|].
  assert (addX (sX s) (5 + length ids) u = sek (S K) (rot (sX s)) (fun k => if Nat.eqb k K then col (sX s) 1 +v rot (sX s) *v pose else col (sX s) k)) as EX.
  { change (5 + length ids)%nat with (3 + K)%nat. apply addX_sek. exact HX. }
  split.
  - destruct I as [I1 I2 I3 I4 I5 I6 I7 I8 [I9 I10]]. split; auto.
    + rewrite len_snoc. replace (2 + S (length ids))%nat with (S K) by lia. split; srs; auto; try lia.
      split; srs; auto; try (rewrite ?nr_aug_cov, ?nc_aug_cov; lia). rewrite EX. apply SEK_sek, HX.
    + cbn [lc_map lc_set_map]. unfold mupd. intros j a. destruct (Nat.eqb_spec j id).
      * intros [= <-]. apply in_app_iff. right; left; auto.
      * intros Ej. apply in_app_iff. left; eauto.
    + assert (~ In (length h) ids) as Hnew.
      { intros Hi. destruct (In_nth_error _ _ Hi) as [k Ek]. specialize (Hh _ _ Ek). assert (length h < length h)%nat; [|lia]. apply nth_error_Some. congruence. }
      cbn [lc_map lc_set_map]. unfold mupd. intros i j a. destruct (Nat.eqb_spec i id), (Nat.eqb_spec j id); try congruence; eauto.
      * intros [= <-] Ej. exfalso. eauto.
      * intros Ei [= <-]. exfalso. eauto.
    + cbn [lc_map lc_set_map]. unfold mupd. intros a Ha. apply in_app_iff in Ha. destruct Ha as [Ha|[<-|[]]].
      * destruct (Honto a Ha) as [j Ej]. exists j. destruct (Nat.eqb_spec j id); [congruence|auto].
      * exists id. rewrite Nat.eqb_refl. reflexivity.
  - rewrite EX. split.
    + split; srs; auto.
      intros k Hk. rewrite col_aff by lia. caseb. reflexivity.
    + split; [reflexivity|]. split; [reflexivity|]. srs. intros HQ HN. apply (psd_Qa K (sQc s) Qa (lc_contact_cov c)); auto; try lia.
      intros i j Hi Hj. rewrite Q3 by lia. replace (9 + 3 * length ids)%nat with (3 + 3 * K)%nat by lia.
      replace (12 + 3 * length ids)%nat with (6 + 3 * K)%nat by lia. replace (6 + length ids)%nat with (4 + K)%nat by lia. reflexivity.
Qed.
