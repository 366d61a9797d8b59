(** Process noise of contacts, accessors, augmented biases, block copies. *)
From Coq Require Import Reals ZArith List Bool Lia Lra.
From Verif Require Import Res Vec3 Mat LieGroup MatInv Psd Spec SpecState LieSO3 LieSEK SEK3 RobotState StateProofs StateHist.
Import ListNotations.
Local Open Scope R_scope.

(** ** C09: what Qc contains after any history *)
Definition newest (m : store) : bool := (0 <? next m)%nat && existsb (Nat.eqb (next m - 1)) (ids m).
Definition qspec (m : store) (r c : nat) : R :=
  let b := (9 + 3 * (length (ids m) - 1))%nat in
  if newest m && (inwin b 3 r && inwin b 3 c) then mget (noise m (next m - 1)) (r - b) (c - b) else 0.
Record noise_inv (s : rstate) (m : store) : Prop := {
  ni_lt : forall p, In p (ids m) -> (p < next m)%nat;
  ni_last : forall p, In p (ids m) -> S p = next m -> age p (ids m) = (length (ids m) - 1)%nat;
  ni_ent : forall r c, (r < dim_err (ids m))%nat -> (c < dim_err (ids m))%nat -> ent (sQc s) r c = qspec m r c }.

Lemma newest_true m : newest m = true <-> exists p, In p (ids m) /\ S p = next m.
Proof.
  unfold newest. rewrite andb_true_iff, Nat.ltb_lt, existsb_exists. split.
  - intros [H (p & Hp & E)]. apply Nat.eqb_eq in E. exists p. split; auto. lia.
  - intros (p & Hp & E). split; [lia|]. exists p. split; auto. apply Nat.eqb_eq. lia.
Qed.
Lemma newest_nil m : length (ids m) = 0%nat -> newest m = false.
Proof. intros H. unfold newest. destruct (ids m); [apply andb_false_r|discriminate]. Qed.
Lemma qspec_zero m r c : (9 + 3 * (length (ids m) - 1) <= r < 12 + 3 * (length (ids m) - 1) ->
   9 + 3 * (length (ids m) - 1) <= c < 12 + 3 * (length (ids m) - 1) -> newest m = false)%nat -> qspec m r c = 0.
Proof.
  intros H. unfold qspec. destruct (newest m) eqn:E; [|reflexivity]. cbn [andb].
  destruct (inwin _ 3 r) eqn:E1; [|reflexivity]. destruct (inwin _ 3 c) eqn:E2; [|reflexivity].
  apply inwin_true in E1, E2. exfalso. assert (true = false) by (apply H; lia). discriminate.
Qed.

Lemma noise_step h s m o h' s' : refines h s m -> noise_inv s m -> valid m o ->
  hist_step (h, s) o = Ok (h', s') -> noise_inv s' (spec_step m o).
Proof.
  intros HR [NL NA NE] Hv E. destruct (hist_step_refines h s m o HR Hv) as (h1 & s1 & E1 & HR1).
  rewrite E1 in E. injection E as <- <-.
  pose proof HR as [HI HN HT HV HC]. pose proof HI as [H1 H2 H0 H3 H4 H5 H6 H7 [ND H8]].
  destruct o as [v P N|p|X|P]; cbn [valid hist_step spec_step] in *.
  - destruct Hv as [HP1 HP2]. unfold dim_err in *. cbn [heap_new] in E1.
    destruct (add_aug_state_ok h s (ids m) v P N HI) as (Qa & s2 & E2 & _ & _ & _ & HQ & Es); [lia|lia|].
    rewrite E2 in E1. cbn [bind] in E1. injection E1 as _ <-.
    assert (~ In (next m) (ids m)) as Hfr by (intros Hc; apply NL in Hc; lia).
    split; cbn [ids next val cov noise].
    + intros p Hp. apply in_app_or in Hp. destruct Hp as [Hp|[<-|[]]]; [apply NL in Hp|]; lia.
    + intros p Hp HS. assert (p = next m) as -> by lia. rewrite age_new by auto.
      rewrite app_length. simpl. lia.
    + intros r c. unfold dim_err. rewrite app_length. cbn [length].
      replace (15 + 3 * (length (ids m) + 1))%nat with (18 + 3 * length (ids m))%nat by lia. intros Hr Hc.
      replace (15 + 3 * (length (ids m) + 1))%nat with (18 + 3 * length (ids m))%nat in * by lia.
      subst s2. srs. rewrite HQ by lia.
      unfold qspec. cbn [ids next noise]. rewrite app_length. cbn [length].
      replace (length (ids m) + 1 - 1)%nat with (length (ids m)) by lia.
      assert (newest (mkStore (ids m ++ [next m]) (S (next m))
        (fun q => if Nat.eqb q (next m) then v else val m q) (blocks (ids m ++ [next m]) P)
        (fun q => if Nat.eqb q (next m) then N else noise m q)) = true) as ->.
      { apply newest_true. exists (next m). cbn [ids next]. split; [apply in_or_app; right; left; reflexivity|reflexivity]. }
      cbn [andb]. replace (S (next m) - 1)%nat with (next m) by lia. rewrite Nat.eqb_refl.
      destruct (inwin (9 + 3 * length (ids m)) 3 r && inwin (9 + 3 * length (ids m)) 3 c) eqn:Ew; [reflexivity|].
      cbv zeta.
      destruct (Nat.ltb_spec r (6 + length (ids m))); destruct (Nat.leb_spec (12 + 3 * length (ids m)) r); try lia;
      destruct (Nat.ltb_spec c (6 + length (ids m))); destruct (Nat.leb_spec (12 + 3 * length (ids m)) c); try lia; try reflexivity;
        rewrite NE by lia; apply qspec_zero; intros;
        (destruct (Nat.eq_dec (length (ids m)) 0); [apply newest_nil; auto|lia]).
  - pose proof (age_nth p _ Hv) as Hn. pose proof (age_lt p _ Hv) as HL.
    cbn [heap_get] in E1. rewrite (H8 _ _ Hn) in E1. cbn [of_opt bind] in E1. rewrite idx_ok in E1 by lia. cbn [bind] in E1.
    rewrite Nat2Z.id in E1.
    destruct (del_aug_state_ok h s (ids m) (age p (ids m)) HI HL) as (h2 & s2 & E2 & HI2 & Lh & Hout & Es).
    rewrite E2 in E1. injection E1 as _ <-.
    pose proof (remove_nth_length (ids m) (age p (ids m)) HL) as Hlen. rewrite <- remove_remove_nth in Hlen by auto.
    assert (forall q, In q (remove Nat.eq_dec p (ids m)) -> In q (ids m)) as Hrm.
    { intros q Hq. apply in_remove in Hq. apply Hq. }
    assert (forall q, In q (remove Nat.eq_dec p (ids m)) -> S q = next m ->
              age q (remove Nat.eq_dec p (ids m)) = (length (remove Nat.eq_dec p (ids m)) - 1)%nat /\
              (age p (ids m) < length (ids m) - 1)%nat) as Hl2.
    { intros q Hq HS. pose proof (NA q (Hrm _ Hq) HS) as HA.
      pose proof (age_remove q p _ ND Hv Hq) as HB. unfold skip in HB.
      pose proof (age_lt _ _ Hq) as HC'. rewrite Hlen in *.
      assert (age p (ids m) <> age q (ids m)).
      { intros EE. pose proof (age_nth q _ (Hrm _ Hq)) as A1. rewrite <- EE, Hn in A1. injection A1 as ->.
        apply in_remove in Hq. destruct Hq as [_ Hq]. congruence. }
      revert HB. destruct (Nat.ltb_spec (age q (remove Nat.eq_dec p (ids m))) (age p (ids m))); intros HB; lia. }
    split; cbn [ids next val cov noise].
    + intros q Hq. apply NL. auto.
    + intros q Hq HS. apply (Hl2 q Hq HS).
    + intros r c Hr Hc. unfold dim_err in *. rewrite Hlen in *. subst s2. cbn [del_spec set_cmap sQc].
      unfold drop_rc. rewrite ent_mk by lia.
      rewrite NE by (unfold skip; destruct (Nat.ltb_spec r (3 * (3 + age p (ids m)))), (Nat.ltb_spec c (3 * (3 + age p (ids m)))); lia).
      set (m' := mkStore (remove Nat.eq_dec p (ids m)) (next m) (val m) (cov m) (noise m)).
      destruct (newest m') eqn:Em.
      * pose proof Em as Em'. apply newest_true in Em. destruct Em as (q & Hq & HS). cbn [ids next m'] in Hq, HS.
        destruct (Hl2 q Hq HS) as [_ Hlt].
        assert (newest m = true) as Em2 by (apply newest_true; exists q; auto).
        unfold qspec. rewrite Em2, Em'. unfold m'; cbn [ids next noise]. rewrite Hlen. cbn [andb].
        unfold inwin, skip.
        assert (HH : forall x, (((9 + 3 * (length (ids m) - 1) <=? (if x <? 3 * (3 + age p (ids m)) then x else x + 3)) &&
           ((if x <? 3 * (3 + age p (ids m)) then x else x + 3) <? 9 + 3 * (length (ids m) - 1) + 3)) =
           ((9 + 3 * (length (ids m) - 1 - 1) <=? x) && (x <? 9 + 3 * (length (ids m) - 1 - 1) + 3)))%nat).
        { intros x. destruct (Nat.ltb_spec x (3 * (3 + age p (ids m))));
          repeat match goal with
          | |- context [(?a <=? ?b)%nat] => destruct (Nat.leb_spec a b)
          | |- context [(?a <? ?b)%nat] => destruct (Nat.ltb_spec a b)
          end; cbn [andb]; try lia; reflexivity. }
        rewrite !HH.
        destruct ((9 + 3 * (length (ids m) - 1 - 1) <=? r) && (r <? 9 + 3 * (length (ids m) - 1 - 1) + 3))%nat eqn:Er; [|reflexivity].
        destruct ((9 + 3 * (length (ids m) - 1 - 1) <=? c) && (c <? 9 + 3 * (length (ids m) - 1 - 1) + 3))%nat eqn:Ec; [|reflexivity].
        cbn [andb]. apply andb_true_iff in Er, Ec. rewrite Nat.leb_le, Nat.ltb_lt in Er, Ec.
        destruct (Nat.ltb_spec r (3 * (3 + age p (ids m)))), (Nat.ltb_spec c (3 * (3 + age p (ids m)))); try lia.
        f_equal; lia.
      * rewrite (qspec_zero m') by auto. apply qspec_zero. intros HA HB.
        destruct (newest m) eqn:En; [|reflexivity]. exfalso.
        apply newest_true in En. destruct En as (q & Hq & HS). pose proof (NA q Hq HS) as Hage.
        destruct (Nat.eq_dec q p) as [->|Hne].
        { unfold skip in *. destruct (Nat.ltb_spec r (3 * (3 + age p (ids m)))); lia. }
        assert (newest m' = true); [|congruence]. apply newest_true. exists q. cbn [ids next m'].
        split; auto. apply in_in_remove; auto.
  - destruct Hv as [HX1 HX2]. injection E1 as _ <-. split; cbn [ids next noise]; auto.
  - injection E1 as _ <-. split; cbn [ids next noise]; auto.
Qed.
Lemma noise_init : noise_inv RS_default spec_init.
Proof.
  split; cbn [ids spec_init]; try (intros p []; fail). intros r c Hr Hc. unfold RS_default, sQc. rewrite ent_O.
  symmetry. apply qspec_zero. reflexivity.
Qed.
Lemma noise_hist os : forall h s m, refines h s m -> noise_inv s m -> valid_history m os ->
  exists h' s', foldM hist_step (h, s) os = Ok (h', s') /\ refines h' s' (fold_left spec_step os m)
    /\ noise_inv s' (fold_left spec_step os m).
Proof.
  induction os as [|o os IH]; intros h s m HR HNI Hv; cbn [foldM fold_left valid_history] in *.
  - eauto.
  - destruct Hv as [Hv1 Hv2]. destruct (hist_step_refines h s m o HR Hv1) as (h1 & s1 & E & HR1).
    rewrite E. cbn [bind]. apply IH; auto. eapply noise_step; eauto.
Qed.
Lemma thm_noise os : valid_history spec_init os ->
  exists h s, hist_run os = Ok (h, s) /\
    let m := spec_run os in
    (forall p, In p (ids m) -> exists i, nth_error h p = Some (Z.of_nat i) /\
       cgetM3 (sQc s) (3 * i - 6) (3 * i - 6) = Ok (if Nat.eqb (S p) (next m) then noise m p else mzero)) /\
    (forall p i r c, In p (ids m) -> S p = next m -> nth_error h p = Some (Z.of_nat i) ->
       (r < 3 * i - 6 \/ 3 * i - 3 <= r \/ c < 3 * i - 6 \/ 3 * i - 3 <= c)%nat -> ent (sQc s) r c = 0).
Proof.
  intros Hv. destruct (noise_hist os [] RS_default spec_init refines_init noise_init Hv) as (h & s & E & HR & HNI).
  exists h, s. split; [exact E|]. fold (spec_run os) in *. set (m := spec_run os) in *. cbv zeta.
  pose proof HR as [HI HN HT HV HC]. pose proof HI as [H1 H2 H0 H3 H4 H5 H6 H7 [ND H8]].
  destruct HNI as [NL NA NE]. unfold dim_err in *. split.
  - intros p Hp. pose proof (age_lt p _ Hp) as HL. exists (5 + age p (ids m))%nat.
    split; [apply H8, age_nth; auto|].
    replace (3 * (5 + age p (ids m)) - 6)%nat with (3 * (3 + age p (ids m)))%nat by lia.
    rewrite cgetM3_ok by lia. f_equal. apply M3_ext. intros a b Ha Hb. rewrite mget_getM3, NE by lia.
    destruct (Nat.eqb_spec (S p) (next m)) as [HS|HS].
    + assert (newest m = true) as En by (apply newest_true; eauto). unfold qspec. rewrite En. cbn [andb].
      rewrite (NA p Hp HS). replace (next m - 1)%nat with p by lia.
      destruct (inwin (9 + 3 * (length (ids m) - 1)) 3 (3 * (3 + (length (ids m) - 1)) + a)) eqn:E1.
      2:{ apply inwin_false in E1. lia. }
      destruct (inwin (9 + 3 * (length (ids m) - 1)) 3 (3 * (3 + (length (ids m) - 1)) + b)) eqn:E2.
      2:{ apply inwin_false in E2. lia. }
      cbn [andb]. f_equal; lia.
    + rewrite mget_zero. apply qspec_zero. intros HA HB.
      destruct (newest m) eqn:En; [|reflexivity]. exfalso. apply newest_true in En. destruct En as (q & Hq & HSq).
      pose proof (NA q Hq HSq) as HAq. assert (age p (ids m) = age q (ids m)) as EE by lia.
      pose proof (age_nth p _ Hp) as A1. rewrite EE, age_nth in A1 by auto. injection A1 as ->. congruence.
  - intros p i r c Hp HS Hi Ho. rewrite (H8 _ _ (age_nth p _ Hp)) in Hi.
    assert (i = 5 + age p (ids m))%nat as -> by (injection Hi; lia).
    rewrite (NA p Hp HS) in Ho. pose proof (age_lt p _ Hp).
    destruct (le_lt_dec (15 + 3 * length (ids m)) r) as [L|L]; [apply ent_zero; lia|].
    destruct (le_lt_dec (15 + 3 * length (ids m)) c) as [L'|L']; [apply ent_zero; lia|].
    rewrite NE by lia. apply qspec_zero. intros; lia.
Qed.
(** two contacts: the first one's noise is gone *)
Lemma thm_noise_refuted : exists os p h s i, valid_history spec_init os /\ hist_run os = Ok (h, s) /\
  In p (ids (spec_run os)) /\ nth_error h p = Some (Z.of_nat i) /\
  noise (spec_run os) p = mid /\ cgetM3 (sQc s) (3 * i - 6) (3 * i - 6) = Ok mzero /\ mzero <> mid.
Proof.
  exists [SAdd vzero (meye 18) mid; SAdd vzero (meye 21) mid], 0%nat.
  set (os := [SAdd vzero (meye 18) mid; SAdd vzero (meye 21) mid]).
  assert (valid_history spec_init os) as Hv by (repeat split).
  destruct (thm_noise os Hv) as (h & s & E & HA & _). cbv zeta in HA.
  destruct (HA 0%nat) as (i & Hi & HQ); [left; reflexivity|].
  exists h, s, i. split; [exact Hv|]. split; [exact E|]. split; [left; reflexivity|]. split; [exact Hi|].
  split; [reflexivity|]. split; [exact HQ|]. intros H. apply (f_equal m00) in H. cbn in H. lra.
Qed.

(** ** C05 *)
Lemma thm_Xinv K s : SEK K (sX s) -> exists Y, get_Xinv s = Ok Y /\ inverse_of (3 + K) (sX s) Y /\ SEK K Y.
Proof.
  intros H. exists (sekinv K (sX s)). split; [apply get_Xinv_ok; [apply H|destruct H; lia]|].
  split; [apply sekinv_spec|apply SEK_inv]; auto.
Qed.
Lemma put_rot_sek K A f B : put (sek K A f) 0 0 (ofM3 B) = sek K B f.
Proof.
  apply mat_ext; try reflexivity. intros i j Hi Hj. mdim.
  destruct (le_lt_dec 3 i) as [L|L]; [rewrite ent_put_out by (mdim; lia); raff; reflexivity|].
  destruct (le_lt_dec 3 j) as [M|M].
  - rewrite ent_put_out by (mdim; lia). replace j with (3 + (j - 3))%nat by lia. raff. reflexivity.
  - rewrite ent_put_in by (mdim; lia). rewrite !Nat.sub_0_r, ent_ofM3 by lia. raff. reflexivity.
Qed.
Lemma SEK3_inverse_val s : (3 <= nr (kX s))%nat -> (5 <= nc (kX s))%nat ->
  exists Y, SEK3_inverse s = Ok Y /\ kK Y = kK s /\
   kX Y = sek 2 (mtr (rot (kX s))) (fun k => vneg (mtr (rot (kX s)) *v col (kX s) k)).
Proof.
  intros Hr Hc. unfold SEK3_inverse, SEK3_get_R, SEK3_set_R, SEK3_set_p, SEK3_set_v, SEK3_get_p, SEK3_get_v, SEK3_default.
  cbn [kX kK]. repeat (okstep; cbn [kX kK]).
  eexists. split; [reflexivity|]. split; [reflexivity|]. unfold SEK3_set_K; cbn [kX].
  fold (rot (kX s)). change (meye 5) with (meye (3 + 2)). rewrite put_rot_eye.
  match goal with |- put (put ?A 0 3 (ofV3 ?u)) 0 4 (ofV3 ?w) = _ =>
    change (put A 0 3 (ofV3 u)) with (put A 0 (3 + 0) (ofV3 u)); rewrite (put_col_sek 2 _ _ 0 u) by lia;
    match goal with |- put ?B _ _ _ = _ => change (put B 0 4 (ofV3 w)) with (put B 0 (3 + 1) (ofV3 w)) end;
    rewrite put_col_sek by lia end. apply aff_ext. intros k Hk. unfold col.
  destruct k as [|[|k]]; try lia; cbn [Nat.eqb]; generalize (rot (kX s)); intros A; [change (3 + 0)%nat with 3%nat; generalize (getV3 (kX s) 0 3)|change (3 + 1)%nat with 4%nat; generalize (getV3 (kX s) 0 4)]; ring3.
Qed.
Lemma thm_SEK3_group s a : SEK 2 (kX s) -> SEK 2 (kX a) ->
  exists Y M, SEK3_inverse s = Ok Y /\ inverse_of 5 (kX s) (kX Y) /\ SEK 2 (kX Y) /\
    SEK3_mul s a = Ok M /\ SEK 2 (kX M) /\ kX M = kX s *M kX a /\ kK Y = kK s /\ kK M = kK s.
Proof.
  intros Hs Ha. destruct (SEK3_inverse_val s) as (Y & E & EK & EX); [destruct Hs; lia|destruct Hs; lia|].
  exists Y. unfold SEK3_mul, SEK3_get_X. rewrite cmul_ok by (destruct Hs, Ha; congruence). cbn [bind].
  eexists. split; [exact E|]. fold (sekinv 2 (kX s)) in EX. rewrite EX.
  split; [apply (sekinv_spec 2); auto|]. split; [apply SEK_inv; auto|].
  split; [reflexivity|]. cbn. split; [apply SEK_mult; auto|]. auto.
Qed.
(** with an augmented column the result is not even of the right size *)
Lemma thm_SEK3_inverse_refuted K s : (3 <= K)%nat -> SEK K (kX s) ->
  exists Y, SEK3_inverse s = Ok Y /\ nr (kX Y) = 5%nat /\ ~ inverse_of (3 + K) (kX s) (kX Y).
Proof.
  intros HK Hs. destruct (SEK3_inverse_val s) as (Y & E & EK & EX); [destruct Hs; lia|destruct Hs; lia|].
  exists Y. split; [exact E|]. rewrite EX. split; [reflexivity|]. intros (_ & _ & H & _). mdim.
Qed.

(** ** C45 *)
Lemma thm_world_accessors K s : stype s = WorldCentric -> SEK K (sX s) -> (2 <= K)%nat ->
  get_world_X s = Ok (sX s) /\ get_world_rotation s = Ok (rot (sX s)) /\
  get_world_velocity s = Ok (col (sX s) 0) /\ get_world_position s = Ok (col (sX s) 1) /\
  exists Y, get_body_X s = Ok Y /\ inverse_of (3 + K) (sX s) Y /\
    get_body_rotation s = Ok (rot Y) /\
    get_body_velocity s = Ok (vneg (col Y 0)) /\ get_body_position s = Ok (vneg (col Y 1)) /\
    get_body_velocity s = Ok (mtr (rot (sX s)) *v col (sX s) 0).
Proof.
  intros Hw Hs HK. unfold get_world_X, get_world_rotation, get_world_velocity, get_world_position,
    get_body_X, get_body_rotation, get_body_velocity, get_body_position, get_rotation, get_velocity, get_position.
  rewrite Hw. pose proof (SEK_SO3 _ _ Hs). destruct (Hs) as [H1 H2 _ _].
  repeat okstep. fold (rot (sX s)). repeat (split; [reflexivity|]).
  exists (sekinv K (sX s)). split; [apply get_Xinv_ok; lia|]. split; [apply sekinv_spec; auto|].
  unfold sekinv. rewrite rot_aff, !col_aff by lia. rewrite !vneg_neg. repeat split.
Qed.
(** body getters disagree in sign with get_body_X *)
Lemma thm_body_accessors_refuted : exists s Y v, stype s = WorldCentric /\ SEK 2 (sX s) /\
  get_body_X s = Ok Y /\ get_body_velocity s = Ok v /\ v <> col Y 0.
Proof.
  set (X := sek 2 mid (fun _ => mkV 1 0 0)).
  assert (SEK 2 X) as HX by (apply SEK_sek, SO3_id).
  set (s := set_X RS_default X).
  destruct (thm_world_accessors 2 s eq_refl HX (le_n 2)) as (_ & _ & _ & _ & Y & E1 & _ & _ & E2 & _ & _).
  exists s, Y, (vneg (col Y 0)). split; [reflexivity|]. split; [exact HX|]. split; [exact E1|]. split; [exact E2|].
  unfold get_body_X, s in E1. cbn [stype set_X RS_default] in E1. rewrite (get_Xinv_ok 2) in E1 by (srs; unfold X; mdim; lia).
  injection E1 as <-. unfold sekinv, X. cbn [sX set_X]. rewrite rot_aff, !col_aff by lia.
  intros E. apply (f_equal v0) in E. cbn in E. lra.
Qed.
(** setter / getter round trips *)
Lemma getV3_put_same A i j u : (i + 3 <= nr A)%nat -> (j + 1 <= nc A)%nat -> getV3 (put A i j (ofV3 u)) i j = u.
Proof.
  intros H1 H2. apply V3_ext; intros a Ha. rewrite vget_getV3 by auto.
  rewrite ent_put_in by (mdim; lia). replace (i + a - i)%nat with a by lia. rewrite Nat.sub_diag.
  apply ent_ofV3; auto.
Qed.
Lemma getV3_put_other A i j u r c : (i + 3 <= nr A)%nat -> (j + 1 <= nc A)%nat ->
  c <> j \/ (r + 3 <= i)%nat \/ (i + 3 <= r)%nat -> getV3 (put A i j (ofV3 u)) r c = getV3 A r c.
Proof.
  intros H1 H2 H. apply V3_ext; intros a Ha. rewrite !vget_getV3 by auto.
  rewrite ent_put_out by (mdim; lia). reflexivity.
Qed.
Lemma thm_roundtrip K s : SEK K (sX s) -> (2 <= K)%nat -> nr (sTheta s) = 6%nat -> nc (sTheta s) = 1%nat ->
  forall Rm v p bg ba, exists s1 s2 s3 s4 s5,
    set_rotation s Rm = Ok s1 /\ set_velocity s1 v = Ok s2 /\ set_position s2 p = Ok s3 /\
    set_gyroscope_bias s3 bg = Ok s4 /\ set_accelerometer_bias s4 ba = Ok s5 /\
    get_rotation s5 = Ok Rm /\ get_velocity s5 = Ok v /\ get_position s5 = Ok p /\
    get_gyroscope_bias s5 = Ok bg /\ get_accelerometer_bias s5 = Ok ba /\
    (SO3 Rm -> SEK K (sX s5)) /\
    (forall i, (5 <= i < 3 + K)%nat -> get_aug_state s5 i = get_aug_state s i) /\ sP s5 = sP s.
Proof.
  intros Hs HK HT1 HT2 Rm v p bg ba. pose proof (SEK_form K _ Hs) as HF.
  pose proof (sek_rows _ _ Hs) as HR1. pose proof (sek_cols _ _ Hs) as HC1.
  eexists _, _, _, _, _.
  split; [unfold set_rotation; okstep; reflexivity|].
  split; [unfold set_velocity; srs; okstep; reflexivity|].
  split; [unfold set_position; srs; okstep; reflexivity|].
  split; [unfold set_gyroscope_bias; srs; okstep; reflexivity|].
  split; [unfold set_accelerometer_bias; srs; okstep; reflexivity|].
  unfold get_rotation, get_velocity, get_position, get_gyroscope_bias, get_accelerometer_bias, get_aug_state. srs.
  assert (put (put (put (sX s) 0 0 (ofM3 Rm)) 0 3 (ofV3 v)) 0 4 (ofV3 p) =
    sek K Rm (fun i => if Nat.eqb i 1 then p else if Nat.eqb i 0 then v else col (sX s) i)) as EX.
  { rewrite HF at 1. rewrite put_rot_sek.
    pose proof (put_col_sek K Rm (col (sX s)) 0 v) as E0. change (3 + 0)%nat with 3%nat in E0. rewrite E0 by lia.
    pose proof (put_col_sek K Rm (fun i => if Nat.eqb i 0 then v else col (sX s) i) 1 p) as E1.
    change (3 + 1)%nat with 4%nat in E1. rewrite E1 by lia. reflexivity. }
  rewrite EX.
  repeat (rewrite cgetV3_ok by (mdim; lia)). rewrite cgetM3_ok by (mdim; lia).
  split; [f_equal; apply rot_aff|].
  split; [f_equal; etransitivity; [apply col_aff; lia|reflexivity]|].
  split; [f_equal; etransitivity; [apply (col_aff _ _ _ _ 1); lia|reflexivity]|].
  split; [f_equal; rewrite getV3_put_other by (mdim; lia); apply getV3_put_same; mdim; lia|].
  split; [f_equal; apply getV3_put_same; mdim; lia|].
  split; [intros HSO; apply SEK_sek; auto|]. split; [|reflexivity].
  intros i Hi. rewrite !cgetV3_ok by (mdim; lia). f_equal. replace i with (3 + (i - 3))%nat by lia.
  etransitivity; [apply col_aff; lia|].
  destruct (Nat.eqb_spec (i - 3) 1); [lia|]. destruct (Nat.eqb_spec (i - 3) 0); [lia|]. reflexivity.
Qed.

(** ** C48: augmented biases *)
Lemma thm_aug_bias_add s b n : nr (sTheta s) = (6 + 3 * n)%nat -> nc (sTheta s) = 1%nat ->
  exists s', add_aug_bias s b = Ok s' /\ nr (sTheta s') = (6 + 3 * (n + 1))%nat /\ nc (sTheta s') = 1%nat /\
    (forall i, (i < 6 + 3 * n)%nat -> ent (sTheta s') i 0 = ent (sTheta s) i 0) /\
    getV3 (sTheta s') (6 + 3 * n) 0 = b /\ (forall i, get_aug_bias s' i = Ok b) /\ sX s' = sX s /\ sP s' = sP s.
Proof.
  intros H1 H2. unfold add_aug_bias. rewrite H1. okstep. eexists. split; [reflexivity|]. srs. mdim.
  split; [lia|]. split; [reflexivity|]. split; [|split].
  - intros i Hi. rewrite ent_put_out by (mdim; lia). unfold cresize. rewrite ent_resize_in by (mdim; lia). reflexivity.
  - apply getV3_put_same; mdim; lia.
  - split; [|split; reflexivity]. intros i. unfold get_aug_bias. srs. mdim. rewrite idx_ok by lia. cbn [bind].
    rewrite cgetV3_ok by (mdim; lia). f_equal. replace (Z.to_nat _) with (6 + 3 * n)%nat by lia. apply getV3_put_same; mdim; lia.
Qed.
Lemma del_aug_bias_val s k n : nr (sTheta s) = (6 + 3 * n)%nat -> nc (sTheta s) = 1%nat -> (k < n)%nat ->
  exists s', del_aug_bias s (5 + k) = Ok s' /\ nr (sTheta s') = (3 + 3 * n)%nat /\
   forall i, (i < 3 + 3 * n)%nat -> ent (sTheta s') i 0 = ent (sTheta s) (if (i <? 6 + k)%nat then i else (i + 3)%nat) 0.
Proof.
  intros H1 H2 Hk. unfold del_aug_bias. rewrite idx_ok by lia. cbn [bind]. rewrite idx_ok by lia. cbn [bind].
  rewrite H1. replace (Z.to_nat (Z.of_nat (5 + k) - 5 + 6)) with (6 + k)%nat by lia.
  replace (Z.to_nat (Z.of_nat (6 + 3 * n) - Z.of_nat (6 + k) - 3)) with (3 * n - k - 3)%nat by lia.
  okstep. okstep. eexists. split; [reflexivity|]. srs. mdim. split; [lia|].
  intros i Hi. unfold cresize. rewrite ent_resize_in by (mdim; lia).
  destruct (Nat.ltb_spec i (6 + k)).
  - rewrite ent_put_out by (mdim; lia). reflexivity.
  - rewrite ent_put_in by (mdim; lia). rewrite ent_sub by lia. f_equal; lia.
Qed.
(** deleting the first augmented bias is right ... *)
Lemma thm_aug_bias_del_first s n : nr (sTheta s) = (6 + 3 * (n + 1))%nat -> nc (sTheta s) = 1%nat ->
  exists s', del_aug_bias s 5 = Ok s' /\ nr (sTheta s') = (6 + 3 * n)%nat /\
   forall i, (i < 6 + 3 * n)%nat -> ent (sTheta s') i 0 = ent (sTheta s) (if (i <? 6)%nat then i else (i + 3)%nat) 0.
Proof.
  intros H1 H2. destruct (del_aug_bias_val s 0 (n + 1)) as (s' & E & E1 & E2); try lia.
  exists s'. split; [exact E|]. split; [lia|]. intros i Hi. rewrite E2 by lia. reflexivity.
Qed.
(** ... but deleting the second one destroys the first, and the index given to get_aug_bias is ignored *)
Lemma thm_aug_bias_refuted : exists s s1 s2 s3,
  add_aug_bias s (mkV 1 2 3) = Ok s1 /\ add_aug_bias s1 (mkV 4 5 6) = Ok s2 /\
  get_aug_bias s2 5 = Ok (mkV 4 5 6) /\
  del_aug_bias s2 6 = Ok s3 /\ get_aug_bias s3 5 <> Ok (mkV 1 2 3).
Proof.
  exists RS_default.
  destruct (thm_aug_bias_add RS_default (mkV 1 2 3) 0 eq_refl eq_refl) as (s1 & E1 & A1 & B1 & C1 & D1 & _).
  destruct (thm_aug_bias_add s1 (mkV 4 5 6) 1 A1 B1) as (s2 & E2 & A2 & B2 & C2 & D2 & G2 & _).
  destruct (del_aug_bias_val s2 1 2 A2 B2) as (s3 & E3 & A3 & C3); [lia|].
  exists s1, s2, s3. split; [exact E1|]. split; [exact E2|]. split; [apply G2|]. split; [exact E3|].
  unfold get_aug_bias. rewrite A3. rewrite idx_ok by lia. cbn [bind].
  change (Z.to_nat (Z.of_nat (3 + 3 * 2) - 3)) with 6%nat. unfold cgetV3.
  match goal with |- context [if ?b then _ else _] => destruct b end; [|discriminate].
  intros E. injection E as EA E EC.
  rewrite C3 in E by lia. change (if (7 <? 6 + 1)%nat then 7%nat else (7 + 3)%nat) with 10%nat in E.
  assert (ent (sTheta s2) 10 0 = 5).
  { change 10%nat with (9 + 1)%nat. change 5 with (vget (mkV 4 5 6) 1). rewrite <- D2. rewrite vget_getV3 by lia. reflexivity. }
  lra.
Qed.

(** ** C46: copies share the ids *)
Lemma thm_copy_refuted : exists os h s h' s' p v w,
  valid_history spec_init os /\ hist_run os = Ok (h, s) /\ In p (ids (spec_run os)) /\
  nth_error h p = Some 6%Z /\ get_aug_state s 6 = Ok v /\
  (* delete landmark 0 in a copy of s *)
  del_aug_state h s 5 = Ok (h', s') /\
  (* the untouched original now reads another landmark through id p *)
  nth_error h' p = Some 5%Z /\ get_aug_state s 5 = Ok w /\ v <> w.
Proof.
  set (os := [SAdd (mkV 1 0 0) (meye 18) mid; SAdd (mkV 2 0 0) (meye 21) mid]).
  assert (valid_history spec_init os) as Hv by (repeat split).
  assert (In 0%nat (ids (spec_run os))) as Hp by (left; reflexivity).
  destruct (thm_del os 0%nat Hv Hp) as (h & s & i & h' & s' & E & Hi & Ed & _ & _ & _ & _ & _ & _ & _ & _ & _ & _ & Hq).
  destruct (thm_ids os Hv) as (h0 & s0 & E0 & HA & _ & _). rewrite E in E0. injection E0 as <- <-.
  destruct (HA 0%nat) as (i0 & Hi0 & Hr0 & Hv0 & _); [left; reflexivity|].
  destruct (HA 1%nat) as (i1 & Hi1 & Hr1 & Hv1 & _); [right; left; reflexivity|].
  destruct (hist_run_refines os Hv) as (h2 & s2 & E2 & [HI _ _ _ _]). rewrite E in E2. injection E2 as <- <-.
  pose proof (si_ids _ _ _ HI) as [_ H8].
  assert (i0 = 5)%nat as -> by (pose proof (H8 0%nat 0%nat eq_refl) as H; rewrite Hi0 in H; injection H; lia).
  assert (i1 = 6)%nat as -> by (pose proof (H8 1%nat 1%nat eq_refl) as H; rewrite Hi1 in H; injection H; lia).
  assert (i = 5)%nat as -> by (rewrite Hi in Hi0; injection Hi0; lia).
  exists os, h, s, h', s', 1%nat, (mkV 2 0 0), (mkV 1 0 0).
  split; [exact Hv|]. split; [exact E|]. split; [right; left; reflexivity|]. split; [exact Hi1|].
  split; [exact Hv1|]. split; [exact Ed|]. split.
  - apply (Hq 1%nat 6%Z); auto. right; left; reflexivity.
  - split; [exact Hv0|]. intros H. injection H. lra.
Qed.

(** ** copy_diag *)
Lemma copy_diag_spec A d : nr A = d -> nc A = d -> (0 < d)%nat -> forall n B k0, square (k0 * d) B ->
  (forall k l a b, (k < k0)%nat -> (l < k0)%nat -> (a < d)%nat -> (b < d)%nat ->
     ent B (k * d + a) (l * d + b) = if Nat.eqb k l then ent A a b else 0) ->
  exists C, copy_diag A n B = Ok C /\ square ((k0 + n) * d) C /\
  forall k l a b, (k < k0 + n)%nat -> (l < k0 + n)%nat -> (a < d)%nat -> (b < d)%nat ->
     ent C (k * d + a) (l * d + b) = if Nat.eqb k l then ent A a b else 0.
Proof.
  intros Hr Hc Hd. induction n as [|n IH]; intros B k0 [HB1 HB2] HB.
  - exists B. split; [reflexivity|]. rewrite Nat.add_0_r. split; [split; auto|auto].
  - cbn [copy_diag]. unfold copy_diag_step. rewrite Hc, HB1.
    okstep. okstep. rewrite check_true by (apply Nat.eqb_eq; auto). cbn [bind].
    rewrite cput_ok by (mdim; lia). cbn [bind].
    match goal with |- context [copy_diag A n ?B1] => destruct (IH B1 (S k0)) as (C & E & HS & HE) end.
    + unfold square. mdim.
    + intros k l a b Hk Hl Ha Hb.
      assert (k * d + a < k0 * d + d)%nat by nia. assert (l * d + b < k0 * d + d)%nat by nia.
      destruct (Nat.eq_dec k k0) as [->|Nk]; destruct (Nat.eq_dec l k0) as [->|Nl].
      * rewrite ent_put_in by (mdim; lia). rewrite Nat.eqb_refl. f_equal; lia.
      * assert (l * d + b < k0 * d)%nat by nia.
        rewrite ent_put_out by (mdim; lia).
        rewrite ent_put_out by (mdim; lia). rewrite ent_put_in by (mdim; lia). rewrite ent_O.
        destruct (Nat.eqb_spec k0 l); [lia|reflexivity].
      * assert (k * d + a < k0 * d)%nat by nia.
        rewrite ent_put_out by (mdim; lia). rewrite ent_put_in by (mdim; lia). rewrite ent_O.
        destruct (Nat.eqb_spec k k0); [lia|reflexivity].
      * assert (k * d + a < k0 * d)%nat by nia. assert (l * d + b < k0 * d)%nat by nia.
        rewrite ent_put_out by (mdim; lia). rewrite ent_put_out by (mdim; lia). rewrite ent_put_out by (mdim; lia).
        unfold cresize. rewrite ent_resize_in by (mdim; lia). apply HB; lia.
    + exists C. rewrite E. split; [reflexivity|]. replace (k0 + S n)%nat with (S k0 + n)%nat by lia. auto.
Qed.
Lemma thm_copy_diag K s n : SEK K (sX s) -> exists C Ci,
  copy_diag_X s n (mO 0 0) = Ok C /\ copy_diag_Xinv s n (mO 0 0) = Ok Ci /\
  square (n * (3 + K)) C /\ square (n * (3 + K)) Ci /\
  (forall k l a b, (k < n)%nat -> (l < n)%nat -> (a < 3 + K)%nat -> (b < 3 + K)%nat ->
    ent C (k * (3 + K) + a) (l * (3 + K) + b) = if Nat.eqb k l then ent (sX s) a b else 0) /\
  inverse_of (n * (3 + K)) C Ci.
Proof.
  intros Hs. pose proof (sek_rows _ _ Hs) as R1. pose proof (sek_cols _ _ Hs) as R2.
  destruct (sekinv_spec K _ Hs) as (_ & _ & I1 & I2 & I3 & I4).
  destruct (copy_diag_spec (sX s) (3 + K) R1 R2 ltac:(lia) n (mO 0 0) 0) as (C & E & [S1 S2] & HC); [split; reflexivity|intros; lia|].
  destruct (copy_diag_spec (sekinv K (sX s)) (3 + K) I1 I2 ltac:(lia) n (mO 0 0) 0) as (Ci & Ei & [T1 T2] & HCi); [split; reflexivity|intros; lia|].
  exists C, Ci. split; [exact E|]. split.
  { unfold copy_diag_Xinv. rewrite (get_Xinv_ok K) by lia. cbn [bind].
    rewrite check_true by (apply Nat.eqb_eq; unfold dimX; congruence). exact Ei. }
  cbn [Nat.add] in *. split; [split; auto|]. split; [split; auto|]. split; [exact HC|].
  set (d := S (S (S K))) in *.
  assert (forall A B U V, square (n * d) U -> square (n * d) V -> nr A = d -> nc A = d -> nr B = d -> nc B = d ->
    (forall k l a b, (k < n)%nat -> (l < n)%nat -> (a < d)%nat -> (b < d)%nat -> ent U (k * d + a) (l * d + b) = if Nat.eqb k l then ent A a b else 0) ->
    (forall k l a b, (k < n)%nat -> (l < n)%nat -> (a < d)%nat -> (b < d)%nat -> ent V (k * d + a) (l * d + b) = if Nat.eqb k l then ent B a b else 0) ->
    A *M B = meye d -> U *M V = meye (n * d)) as HM.
  { intros A B U V [U1 U2] [V1 V2] A1 A2 B1 B2 HU HV HAB. apply mat_ext; [mdim|mdim|].
    intros i j Hi Hj. mdim. rewrite ent_mult, U2, ent_eye by lia.
    assert (forall m f, sum (m * d) f = sum m (fun k => sum d (fun a => f (k * d + a)%nat))) as Hsum.
    { intros m f. induction m as [|m IHm]; [reflexivity|]. cbn [sum]. rewrite <- IHm.
      replace (S m * d)%nat with (m * d + d)%nat by lia. apply sum_app. }
    assert (d <> 0)%nat by (unfold d; lia).
    pose proof (Nat.div_mod i d) as Ei'. pose proof (Nat.div_mod j d) as Ej'.
    pose proof (Nat.mod_upper_bound i d). pose proof (Nat.mod_upper_bound j d).
    set (ki := (i / d)%nat) in *. set (kj := (j / d)%nat) in *. set (ai := (i mod d)%nat) in *. set (aj := (j mod d)%nat) in *.
    assert (ki < n)%nat by nia. assert (kj < n)%nat by nia.
    rewrite Hsum. rewrite (sum_delta' n ki); auto.
    - replace i with (ki * d + ai)%nat by lia. replace j with (kj * d + aj)%nat by lia.
      destruct (Nat.eq_dec ki kj) as [EE|NE].
      + transitivity (ent (A *M B) ai aj).
        { rewrite ent_mult, A2. apply sum_ext. intros a Ha. rewrite HU, HV by (auto; lia).
          rewrite EE, !Nat.eqb_refl. reflexivity. }
        rewrite HAB, ent_eye by lia. rewrite EE.
        destruct (Nat.eqb_spec ai aj), (Nat.eqb_spec (kj * d + ai) (kj * d + aj)); try lia; reflexivity.
      + rewrite sum_zero.
        * destruct (Nat.eqb_spec (ki * d + ai) (kj * d + aj)); [nia|reflexivity].
        * intros a Ha. rewrite HV by (auto; lia). destruct (Nat.eqb_spec ki kj); [lia|ring].
    - intros k Hk Hne. apply sum_zero. intros a Ha.
      replace i with (ki * d + ai)%nat by lia. rewrite HU by (auto; lia).
      destruct (Nat.eqb_spec ki k); [congruence|ring]. }
  unfold inverse_of. repeat (split; [assumption|]).
  split; [eapply (HM (sX s) (sekinv K (sX s)))|eapply (HM (sekinv K (sX s)) (sX s))]; eauto; split; auto.
Qed.
