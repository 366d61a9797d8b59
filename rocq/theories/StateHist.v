(** Histories of RobotState operations and their refinement to SpecState. *)
From Coq Require Import Reals ZArith List Bool Lia Lra Permutation.
From Verif Require Import Res Vec3 Mat LieGroup MatInv Psd Spec SpecState LieSO3 LieSEK SEK3 RobotState StateProofs.
Import ListNotations.
Local Open Scope R_scope.

(** One history step on the code's state.  Ids are created and used as the
    legged correction does (legged_kinematics_correction.cpp:189-252):
    make_shared<int>(state.dimX()), add_aug_state; del_aug_state of the id's value. *)
Definition hist_step (hs : heap * rstate) (o : sop) : res (heap * rstate) :=
  let '(h, s) := hs in
  match o with
  | SAdd v P N =>
      let '(h', p) := heap_new h (Z.of_nat (dimX s)) in
      let* '(s', _) := add_aug_state s v P N (Some p) in Ok (h', s')
  | SDel p =>
      let* z := heap_get h (Some p) in
      let* i := idx z in del_aug_state h s i
  | SSetX X => Ok (h, set_X s X)
  | SSetP P => Ok (h, set_P s P)
  end.
Definition hist_run (os : list sop) : res (heap * rstate) := foldM hist_step ([], RS_default) os.

Lemma age_nth p l : In p l -> nth_error l (age p l) = Some p.
Proof.
  induction l as [|q l IH]; simpl; [tauto|]. intros H. destruct (Nat.eqb_spec p q) as [->|Hne]; [reflexivity|].
  simpl. apply IH. destruct H; congruence.
Qed.
Lemma age_lt p l : In p l -> (age p l < length l)%nat.
Proof. intros H. apply nth_error_Some. rewrite age_nth by auto. discriminate. Qed.
Lemma age_unique p l k : NoDup l -> nth_error l k = Some p -> age p l = k.
Proof.
  intros ND H. pose proof (nth_error_In _ _ H) as Hin.
  apply (proj1 (NoDup_nth_error l) ND).
  - apply age_lt; auto.
  - rewrite age_nth by auto. auto.
Qed.
Lemma age_app p l l' : In p l -> age p (l ++ l') = age p l.
Proof.
  induction l as [|q l IH]; simpl; [tauto|]. intros H. destruct (Nat.eqb_spec p q); auto.
  f_equal. apply IH. destruct H; congruence.
Qed.
Lemma age_new p l : ~ In p l -> age p (l ++ [p]) = length l.
Proof.
  induction l as [|q l IH]; simpl; intros H.
  - rewrite Nat.eqb_refl. reflexivity.
  - destruct (Nat.eqb_spec p q); [subst; tauto|]. rewrite IH; tauto.
Qed.
Lemma remove_remove_nth p l : NoDup l -> In p l -> remove Nat.eq_dec p l = remove_nth (age p l) l.
Proof.
  induction l as [|q l IH]; intros ND H; [destruct H|]. inversion ND; subst. cbn [remove age].
  destruct (Nat.eq_dec p q) as [->|Hne].
  - rewrite Nat.eqb_refl. cbn [remove_nth]. apply notin_remove. auto.
  - destruct (Nat.eqb_spec p q); [congruence|]. cbn [remove_nth]. f_equal. apply IH; auto.
    destruct H; congruence.
Qed.
Lemma age_remove q p l : NoDup l -> In p l -> In q (remove Nat.eq_dec p l) ->
  age q l = skip (age p l) 1 (age q (remove Nat.eq_dec p l)).
Proof.
  intros ND Hp Hq. apply age_unique; auto.
  rewrite <- nth_error_remove_nth, <- remove_remove_nth by auto. apply age_nth. auto.
Qed.

(** refinement relation *)
Record refines (h : heap) (s : rstate) (m : store) : Prop := {
  rf_inv : st_inv h s (ids m);
  rf_next : next m = length h;
  rf_T : nr (sTheta s) = 6%nat;
  rf_val : forall p, In p (ids m) -> getV3 (sX s) 0 (5 + age p (ids m)) = val m p;
  rf_cov : forall a b, live (ids m) a -> live (ids m) b ->
             getM3 (sP s) (3 * block_of (ids m) a) (3 * block_of (ids m) b) = cov m a b }.

Lemma refines_init : refines [] RS_default spec_init.
Proof.
  split; try reflexivity; try apply st_inv_default; try (intros p []; fail).
Qed.

Lemma ids_ok_fresh h l : ids_ok h l -> forall p, In p l -> (p < length h)%nat.
Proof.
  intros [ND HI] p Hp. apply In_nth_error in Hp. destruct Hp as [k Hk].
  apply nth_error_Some. rewrite (HI _ _ Hk). discriminate.
Qed.

Lemma block_remove (l : list nat) p a : NoDup l -> In p l -> live (remove Nat.eq_dec p l) a ->
  block_of l a = skip (3 + age p l) 1 (block_of (remove Nat.eq_dec p l) a).
Proof.
  intros ND Hp Ha. pose proof (age_lt p l Hp) as HL.
  pose proof (remove_nth_length l (age p l) HL) as Hlen. rewrite <- remove_remove_nth in Hlen by auto.
  destruct a; cbn [block_of live] in *; unfold skip.
  - reflexivity.
  - reflexivity.
  - reflexivity.
  - rewrite (age_remove p0 p l) by auto. unfold skip.
    set (k := age p0 _).
    destruct (Nat.ltb_spec k (age p l)), (Nat.ltb_spec (3 + k) (3 + age p l)); lia.
  - rewrite Hlen. destruct (Nat.ltb_spec (3 + (length l - 1)) (3 + age p l)); lia.
  - rewrite Hlen. destruct (Nat.ltb_spec (4 + (length l - 1)) (3 + age p l)); lia.
Qed.
Lemma block_lt l a : live l a -> (block_of l a < 5 + length l)%nat.
Proof. destruct a; cbn; try lia. intros H; apply age_lt in H; lia. Qed.

Lemma hist_step_refines h s m o : refines h s m -> valid m o ->
  exists h' s', hist_step (h, s) o = Ok (h', s') /\ refines h' s' (spec_step m o).
Proof.
  intros [HI HN HT HV HC] Hv. destruct o as [v P N|p|X|P]; cbn [valid hist_step spec_step] in *.
  - destruct Hv as [HP1 HP2]. unfold dim_err in *. cbn [heap_new].
    destruct (add_aug_state_ok h s (ids m) v P N HI) as (Qa & s' & E & HI' & _ & _ & _ & Es); [lia|lia|].
    rewrite E. cbn [bind]. eexists _, _. split; [reflexivity|].
    assert (forall p, In p (ids m) -> p <> next m) as Hfr.
    { intros p Hp. pose proof (ids_ok_fresh _ _ (si_ids _ _ _ HI) p Hp). lia. }
    split; cbn [ids next val cov].
    + rewrite HN. exact HI'.
    + rewrite app_length. simpl. lia.
    + subst s'. exact HT.
    + intros q Hq. subst s'. srs. unfold addX.
      apply in_app_or in Hq. destruct HI as [H1 H2 _ _ _ _ _ _ Hid].
      apply V3_ext. intros i Hi. rewrite vget_getV3 by auto. rewrite Nat.add_0_l.
      destruct Hq as [Hq|[<-|[]]].
      * rewrite age_app by auto. pose proof (age_lt q _ Hq).
        rewrite ent_put_out by (mdim; lia). rewrite ent_resize_in by (mdim; lia).
        destruct (Nat.eqb_spec q (next m)); [subst; exfalso; eapply Hfr; eauto|].
        rewrite <- HV by auto. rewrite vget_getV3 by auto. reflexivity.
      * rewrite age_new by (intros Hc; eapply Hfr; eauto). rewrite Nat.eqb_refl.
        rewrite ent_put_in by (mdim; lia). rewrite Nat.sub_0_r, Nat.sub_diag. rewrite ent_ofV3 by auto. reflexivity.
    + intros a b Ha Hb. subst s'. srs. reflexivity.
  - pose proof (si_ids _ _ _ HI) as [ND Hh]. pose proof (age_nth p _ Hv) as Hn. pose proof (age_lt p _ Hv) as HL.
    cbn [heap_get]. rewrite (Hh _ _ Hn). cbn [of_opt bind]. rewrite idx_ok by lia. cbn [bind].
    rewrite Nat2Z.id.
    destruct (del_aug_state_ok h s (ids m) (age p (ids m)) HI HL) as (h' & s' & E & HI' & Lh & Hout & Es).
    rewrite E. eexists _, _. split; [reflexivity|]. rewrite <- remove_remove_nth in HI' by auto.
    pose proof (remove_nth_length (ids m) (age p (ids m)) HL) as Hlen. rewrite <- remove_remove_nth in Hlen by auto.
    destruct HI as [H1 H2 _ H3 H4 _ _ _ _].
    split; cbn [ids next val cov]; auto.
    + lia.
    + subst s'. exact HT.
    + intros q Hq. subst s'. cbn [del_spec set_cmap sX].
      assert (In q (ids m)) as Hq' by (apply in_remove in Hq; apply Hq).
      rewrite <- (HV q Hq'). rewrite (age_remove q p (ids m) ND Hv Hq).
      pose proof (age_lt q _ Hq) as HLq.
      apply V3_ext. intros i Hi. rewrite !vget_getV3 by auto. unfold drop_rc.
      rewrite ent_mk by lia. unfold skip.
      set (k := age q (remove _ _ _)) in *.
      destruct (Nat.ltb_spec (0 + i) (5 + age p (ids m))); [|lia].
      destruct (Nat.ltb_spec k (age p (ids m))), (Nat.ltb_spec (5 + k) (5 + age p (ids m))); try lia; f_equal; lia.
    + intros a b Ha Hb. subst s'. cbn [del_spec set_cmap sP].
      assert (forall a, live (remove Nat.eq_dec p (ids m)) a -> live (ids m) a) as Hlv.
      { intros [| | |q| |]; cbn; auto. intros Hq. apply in_remove in Hq. apply Hq. }
      rewrite <- HC by auto. rewrite (block_remove (ids m) p a), (block_remove (ids m) p b) by auto.
      pose proof (block_lt _ _ Ha). pose proof (block_lt _ _ Hb).
      apply getM3_drop; lia.
  - destruct Hv as [HX1 HX2]. eexists _, _. split; [reflexivity|].
    destruct HI as [H1 H2 H0 H3 H4 H5 H6 H7 H8].
    split; cbn [ids next val cov]; srs; auto. split; srs; auto.
  - destruct Hv as [HX1 HX2]. unfold dim_err in *. eexists _, _. split; [reflexivity|].
    destruct HI as [H1 H2 H0 H3 H4 H5 H6 H7 H8].
    split; cbn [ids next val cov]; srs; auto. split; srs; auto; lia.
Qed.

Lemma hist_refines os : forall h s m, refines h s m -> valid_history m os ->
  exists h' s', foldM hist_step (h, s) os = Ok (h', s') /\ refines h' s' (fold_left spec_step os m).
Proof.
  induction os as [|o os IH]; intros h s m HR Hv; cbn [foldM fold_left valid_history] in *.
  - eauto.
  - destruct Hv as [Hv1 Hv2]. destruct (hist_step_refines h s m o HR Hv1) as (h1 & s1 & E & HR1).
    rewrite E. cbn [bind]. apply IH; auto.
Qed.
Lemma hist_run_refines os : valid_history spec_init os ->
  exists h s, hist_run os = Ok (h, s) /\ refines h s (spec_run os).
Proof. apply hist_refines, refines_init. Qed.

(** ** C06 *)
Lemma thm_dims os : valid_history spec_init os ->
  exists h s, hist_run os = Ok (h, s) /\
    nr (sX s) = dimX s /\ dimX s = (5 + length (ids (spec_run os)))%nat /\
    nr (sP s) = dimP s /\ nr (sQc s) = dimQc s /\ dimTheta s = 6%nat /\ nc (sTheta s) = 1%nat /\
    dimP s = (3 * dimX s + dimTheta s - 6)%nat /\ dimQc s = dimP s /\ length (scmap s) = dimX s.
Proof.
  intros Hv. destruct (hist_run_refines os Hv) as (h & s & E & [HI HN HT HV HC]).
  exists h, s. split; [exact E|]. destruct HI as [H1 H2 H0 H3 H4 H5 H6 H7 H8].
  unfold dimX, dimP, dimQc, dimTheta. rewrite H7, cm_length.
  split; [congruence|]. split; [congruence|]. split; [congruence|]. split; [congruence|].
  repeat split; auto; lia.
Qed.

(** ** C07 *)
Lemma thm_ids os : valid_history spec_init os ->
  exists h s, hist_run os = Ok (h, s) /\
    let m := spec_run os in
    (forall p, In p (ids m) -> exists i, nth_error h p = Some (Z.of_nat i) /\ (5 <= i < dimX s)%nat /\
       get_aug_state s i = Ok (val m p) /\ get_aug_cov s i = Ok (cov m (Lm p) (Lm p))) /\
    (forall p q, In p (ids m) -> In q (ids m) -> nth_error h p = nth_error h q -> p = q) /\
    (forall a b, live (ids m) a -> live (ids m) b ->
       cgetM3 (sP s) (3 * block_of (ids m) a) (3 * block_of (ids m) b) = Ok (cov m a b)).
Proof.
  intros Hv. destruct (hist_run_refines os Hv) as (h & s & E & [HI HN HT HV HC]).
  exists h, s. split; [exact E|]. cbv zeta. set (m := spec_run os) in *.
  destruct HI as [H1 H2 H0 H3 H4 H5 H6 H7 [ND H8]]. split; [|split].
  - intros p Hp. pose proof (age_lt p _ Hp) as HL. exists (5 + age p (ids m))%nat.
    split; [apply H8, age_nth; auto|]. unfold dimX. split; [lia|]. split.
    + unfold get_aug_state. rewrite cgetV3_ok by lia. f_equal. apply HV; auto.
    + unfold get_aug_cov. rewrite cov_index_ok. cbn [bind]. rewrite cgetM3_ok by lia. f_equal.
      apply (HC (Lm p) (Lm p)); auto.
  - intros p q Hp Hq Hpq. rewrite (H8 _ _ (age_nth p _ Hp)), (H8 _ _ (age_nth q _ Hq)) in Hpq.
    injection Hpq as Hpq. assert (age p (ids m) = age q (ids m)) as EE by lia.
    pose proof (age_nth p _ Hp) as A1. rewrite EE, age_nth in A1 by auto. congruence.
  - intros a b Ha Hb. pose proof (block_lt _ _ Ha). pose proof (block_lt _ _ Hb).
    rewrite cgetM3_ok by lia. f_equal. apply HC; auto.
Qed.

(** ** C08 *)
Lemma drop_deleted i m M : (m <= nr M)%nat -> (m <= nc M)%nat -> rc_deleted i m M (drop_rc i m M).
Proof.
  intros H1 H2. unfold rc_deleted. mdim. split; [lia|]. split; [lia|].
  intros r c Hr Hc. unfold drop_rc. rewrite ent_mk by lia. reflexivity.
Qed.
Lemma thm_del os p : valid_history spec_init os -> In p (ids (spec_run os)) ->
  exists h s i h' s', hist_run os = Ok (h, s) /\ nth_error h p = Some (Z.of_nat i) /\
    del_aug_state h s i = Ok (h', s') /\
    rc_deleted i 1 (sX s) (sX s') /\
    rc_deleted (3 * i - 6) 3 (sP s) (sP s') /\
    rc_deleted (3 * i - 6) 3 (sQc s) (sQc s') /\
    sTheta s' = sTheta s /\ st s' = st s /\ stprop s' = stprop s /\ sbav s' = sbav s /\
    sen s' = sen s /\ stype s' = stype s /\ sslip s' = sslip s /\
    (forall q j, In q (ids (spec_run os)) -> q <> p -> nth_error h q = Some j ->
        nth_error h' q = Some (if (j <? Z.of_nat i)%Z then j else (j - 1)%Z)).
Proof.
  intros Hv Hp. destruct (hist_run_refines os Hv) as (h & s & E & [HI HN HT HV HC]).
  set (m := spec_run os) in *. pose proof (age_lt p _ Hp) as HL.
  destruct (del_aug_state_ok h s (ids m) (age p (ids m)) HI HL) as (h' & s' & E' & HI' & Lh & Hout & Es).
  exists h, s, (5 + age p (ids m))%nat, h', s'. split; [exact E|].
  pose proof (si_ids _ _ _ HI) as [ND H8].
  pose proof (si_ids _ _ _ HI') as [ND' H8'].
  split; [apply H8, age_nth; auto|]. split; [exact E'|].
  destruct HI as [H1 H2 H0 H3 H4 H5 H6 H7 _].
  replace (3 * (5 + age p (ids m)) - 6)%nat with (3 * (3 + age p (ids m)))%nat by lia.
  subst s'. cbn [del_spec set_cmap sX sP sQc sTheta st stprop sbav sen stype sslip].
  split; [apply drop_deleted; lia|]. split; [apply drop_deleted; lia|]. split; [apply drop_deleted; lia|].
  repeat (split; [reflexivity|]).
  intros q j Hq Hne Hj. rewrite (H8 _ _ (age_nth q _ Hq)) in Hj. assert (j = Z.of_nat (5 + age q (ids m))) as -> by congruence.
  assert (In q (remove Nat.eq_dec p (ids m))) as Hq' by (apply in_in_remove; auto).
  pose proof (age_remove q p _ ND Hp Hq') as Hage.
  rewrite <- remove_remove_nth in H8' by auto. rewrite (H8' _ _ (age_nth q _ Hq')).
  f_equal. unfold skip in Hage. set (k := age q (remove _ _ _)) in *. revert Hage.
  destruct (Nat.ltb_spec k (age p (ids m))), (Z.ltb_spec (Z.of_nat (5 + age q (ids m))) (Z.of_nat (5 + age p (ids m)))); intros Hage; try lia.
Qed.

(** adding a landmark and deleting it again *)
Lemma drop_addX X n v : nr X = n -> nc X = n -> (3 <= n)%nat -> drop_rc n 1 (addX X n v) = X.
Proof.
  intros H1 H2 H3. unfold addX. apply mat_ext; [mdim|mdim|]. intros i j Hi Hj. mdim.
  unfold drop_rc. rewrite ent_mk by (mdim; lia). unfold skip.
  destruct (Nat.ltb_spec i n), (Nat.ltb_spec j n); try lia.
  rewrite ent_put_out by (mdim; lia). rewrite ent_resize_in by (mdim; lia). reflexivity.
Qed.
Lemma thm_add_del os v Pa N : valid_history spec_init os ->
  square (dim_err (ids (spec_run os)) + 3) Pa ->
  exists h s h1 s1 i h2 s2, hist_run os = Ok (h, s) /\
    hist_step (h, s) (SAdd v Pa N) = Ok (h1, s1) /\
    nth_error h1 (length h) = Some (Z.of_nat i) /\ get_aug_state s1 i = Ok v /\
    del_aug_state h1 s1 i = Ok (h2, s2) /\
    sX s2 = sX s /\ sTheta s2 = sTheta s /\ scmap s2 = scmap s /\
    (forall p, In p (ids (spec_run os)) -> nth_error h2 p = nth_error h p) /\
    (rc_deleted (3 * i - 6) 3 Pa (sP s) -> sP s2 = sP s).
Proof.
  intros Hv [HP1 HP2]. destruct (hist_run_refines os Hv) as (h & s & E & [HI HN HT HV HC]).
  set (m := spec_run os) in *. unfold dim_err in *.
  destruct (add_aug_state_ok h s (ids m) v Pa N HI) as (Qa & s1 & E1 & HI1 & _ & _ & _ & Es); [lia|lia|].
  destruct (del_aug_state_ok _ s1 _ (length (ids m)) HI1) as (h2 & s2 & E2 & HI2 & Lh & Hout & Es2).
  { rewrite app_length. simpl. lia. }
  exists h, s, (h ++ [Z.of_nat (dimX s)]), s1, (5 + length (ids m))%nat, h2, s2.
  destruct HI as [H1 H2 H0 H3 H4 H5 H6 H7 [ND H8]].
  assert (remove_nth (length (ids m)) (ids m ++ [length h]) = ids m) as Hrm.
  { generalize (ids m) as l. clear. induction l; simpl; [reflexivity|]. f_equal; auto. }
  split; [exact E|]. split; [cbn [hist_step heap_new]; rewrite E1; reflexivity|].
  split. { rewrite nth_error_app2, Nat.sub_diag by lia. cbn. unfold dimX. rewrite H2. reflexivity. }
  split. { subst s1. unfold get_aug_state. srs. unfold addX. rewrite cgetV3_ok by (mdim; lia). f_equal.
    apply V3_ext; intros i Hi. rewrite vget_getV3 by auto. rewrite ent_put_in by (mdim; lia).
    rewrite Nat.add_0_l, Nat.sub_0_r, Nat.sub_diag. apply ent_ofV3; auto. }
  split; [exact E2|]. subst s2. cbn [del_spec set_cmap sX sP sQc sTheta scmap]. subst s1. srs.
  split; [apply drop_addX; lia|]. split; [reflexivity|].
  split; [rewrite Hrm; auto|]. split.
  - intros p Hp. destruct HI2 as [_ _ _ _ _ _ _ _ [_ H8']]. rewrite Hrm in H8'.
    rewrite (H8' _ _ (age_nth p _ Hp)), (H8 _ _ (age_nth p _ Hp)). reflexivity.
  - intros (D1 & D2 & D3). apply mat_ext; [mdim|mdim|].
    intros i j Hi Hj. mdim. rewrite D3 by lia. unfold drop_rc. rewrite ent_mk by (mdim; lia).
    unfold skip. replace (3 * (5 + length (ids m)) - 6)%nat with (3 * (3 + length (ids m)))%nat by lia. reflexivity.
Qed.
