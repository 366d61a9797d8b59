(** Proofs for programs with a gyro filter: C74-C76. *)
From Coq Require Import Reals ZArith List Bool Arith Lia Lra.
From Verif Require Import Res Vec3 Mat MatInv Psd Spec LieGroup RobotState Inekf SpecFilter Imu Propagation SpecProp ImuFilter SpecGyro GyroThms GyroHist GyroEx GyroMore
  VelCorr LegCorr SpecCorr Estimator SpecEst EstSafe EstPub Driver SpecDriver DriverThms System SpecSystem.
Import ListNotations.
Local Open Scope R_scope.

(** ** working arrangements: gyro propagation with an encoder (no calibration) or one IMU *)
Inductive kind := KAv | KImu.
Record arr (k : kind) (g : gfilt) : Prop := {
  ar_inv : gyro_inv g; ar_pm : gf_pm g = GYRO; ar_gyro : exists q, gf_gyro g = Some q;
  ar_size : exists z, gf_size g = Some z /\ (gf_static g = true -> z <> 0%Z);
  ar_ni : gf_nimu g = match k with KAv => 0 | KImu => 1 end%nat; ar_na : gf_nav g = match k with KAv => 1 | KImu => 0 end%nat;
  ar_cm : gf_init g = true -> gf_cm g = match k with KAv => ANG_VEL | KImu => SINGLE_IMU end;
  ar_buf : match k with KAv => gf_static g = false /\ exists q, gf_av g = Some q | KImu => exists q, gf_imu g = Some q end }.
Lemma arr_set k g g' : arr k g -> gyro_inv g' -> gf_pm g' = gf_pm g -> gf_nimu g' = gf_nimu g -> gf_nav g' = gf_nav g -> gf_init g' = gf_init g -> gf_cm g' = gf_cm g ->
  gf_static g' = gf_static g -> gf_size g' = gf_size g -> (exists q, gf_gyro g' = Some q) -> ((exists q, gf_imu g = Some q) -> exists q, gf_imu g' = Some q) -> ((exists q, gf_av g = Some q) -> exists q, gf_av g' = Some q) -> arr k g'.
Proof.
  intros [] HI Hp Hn Hv Hii Hc Hs Hz Hg Hbi Hba. constructor; try congruence; auto.
  - rewrite Hz, Hs. auto.
  - rewrite Hc, Hii. auto.
  - destruct k; [|auto]. rewrite Hs. destruct ar_buf0. auto.
Qed.

Lemma prop_meta g g' : GyroPropagate g = Ok g' -> gf_nimu g' = gf_nimu g /\ gf_nav g' = gf_nav g /\ gf_static g' = gf_static g /\ gf_size g' = gf_size g /\
  (gf_cm g = ANG_VEL -> gf_latest g' = match q_of (gf_gyro g) with [] => gf_latest g | m :: _ => Some m end).
Proof.
  unfold GyroPropagate. destruct (gf_gyro g) as [[|m q]|]; cbn [of_opt bind q_of]; [injection 1 as <-; auto| |discriminate].
  destruct (cadd _ _); cbn [bind]; [|discriminate]. destruct (cadd _ _); cbn [bind]; [|discriminate]. injection 1 as <-. cbn. repeat split; auto. intros ->. reflexivity.
Qed.

(** what one iteration does *)
Record iter (k : kind) (g g' : gfilt) : Prop := {
  it_arr : arr k g';
  it_gyro : exists u, q_of (gf_gyro g) = u ++ q_of (gf_gyro g') /\
    (forall m, gf_latest g' = Some m -> gf_latest g = Some m \/ In m u);
  it_out : exists u new, gf_out g' = gf_out g ++ new /\
    match k with
    | KAv => q_of (gf_av g) = u_avs u ++ q_of (gf_av g') /\ u_imus u = [] /\ emits u new /\
        (forall m, In m new -> exists x, gf_latest g' = Some x /\ i_q m = i_q x /\ i_a m = i_a x)
    | KImu => q_of (gf_imu g) = u_imus u ++ q_of (gf_imu g') /\ u_avs u = [] /\ sublist (map (fun m => (i_t m, i_q m, i_a m)) new) (map (fun m => (i_t m, i_q m, i_a m)) (u_imus u))
    end }.
Lemma u_imus_inl l : u_imus (map (@Datatypes.inl imu avmeas) l) = l. Proof. induction l as [|a l IH]; [reflexivity|]. exact (f_equal (cons a) IH). Qed.
Lemma u_avs_inl l : u_avs (map (@Datatypes.inl imu avmeas) l) = []. Proof. induction l; cbn; auto. Qed.
Lemma sl_none {A} (l : list A) : sublist [] l. Proof. induction l; constructor; auto. Qed.
Lemma init_iter k g : arr k g -> gf_init g = false -> exists g', ImuFilter_RunOnce g false = Ok g' /\ iter k g g'.
Proof.
  intros H Hi. pose proof H as []. destruct ar_size0 as (z & Ez & Hz). destruct ar_gyro0 as (qg & Eg).
  assert (pick_method g = match k with KAv => ANG_VEL | KImu => SINGLE_IMU end) as Hpm by (unfold pick_method; rewrite ar_ni0, ar_na0; destruct k; reflexivity).
  pose proof (keeps_run g false ar_inv0) as KR. unfold ImuFilter_RunOnce in *. rewrite Hi in *. cbn [maybe_clear bind] in *. rewrite Hpm in *.
  set (h := gf_mode g _ _ _ _ _) in *. unfold InitializeFilter in *. change (gf_size h) with (gf_size g) in *. rewrite Ez in *. cbn [of_opt bind] in *.
  change (gf_vec h) with (gf_vec g) in *. change (gf_static h) with (gf_static g) in *. destruct k.
  - destruct ar_buf0 as [Hs (qa & Ea)]. rewrite Hs in *. rewrite Bool.andb_false_r in *. eexists. split; [reflexivity|]. destruct KR as [KI KC]. constructor.
    + constructor; cbn; auto. exists qg; auto. exists z. rewrite Hs. split; [auto|discriminate]. split; [auto|exists qa; auto].
    + exists []. cbn. auto.
    + exists [], []. cbn. rewrite app_nil_r. repeat split; auto; [constructor|intros m []].
  - destruct ar_buf0 as (qi & Ei). destruct (vec_short _ _ && gf_static g)%bool eqn:Ev.
    + change (gf_imu h) with (gf_imu g) in *. rewrite Ei in *. cbn [of_opt bind] in *. destruct qi as [|m qi].
      * eexists. split; [reflexivity|]. destruct KR as [KI KC]. constructor.
        -- constructor; cbn; auto; [exists qg; auto|exists z; auto|exists []; auto].
        -- exists []. cbn. auto.
        -- exists [], []. cbn. rewrite app_nil_r. repeat split; auto. constructor.
      * cbn [gf_set_vec gf_set_imu gf_queues gf_pm h gf_mode gf_gyro] in *. rewrite ar_pm0, Eg in *. cbn [of_opt bind] in *. destruct qg as [|m0 qg]; cbn [bind] in *; (eexists; split; [reflexivity|]; destruct KR as [KI KC]; constructor).
        -- constructor; cbn; auto; [exists []; auto|exists z; auto|exists qi; auto].
        -- exists []. cbn. rewrite Eg. auto.
        -- exists [Datatypes.inl m], []. cbn. rewrite Ei, app_nil_r. repeat split; auto. apply sl_none.
        -- constructor; cbn; auto; [exists qg; auto|exists z; auto|exists qi; auto].
        -- exists [m0]. cbn. rewrite Eg. auto.
        -- exists [Datatypes.inl m], []. cbn. rewrite Ei, app_nil_r. repeat split; auto. apply sl_none.
    + destruct (gf_static g) eqn:Es.
      * rewrite Bool.andb_true_r in Ev. destruct (gf_vec g) as [|v l] eqn:Ew.
        { exfalso. specialize (Hz eq_refl). unfold vec_short in Ev. apply Bool.orb_false_iff in Ev. destruct Ev as [E1 E2]. apply Z.ltb_ge in E1, E2. cbn in E2. lia. }
        unfold average in *. subst h. cbn [bind] in *. cbn [gf_set_est gf_pm gf_mode gf_gyro gf_cm gf_set_gyro gf_queues gf_imu gf_set_imu gf_P] in *. rewrite ar_pm0, Eg in *. cbn [of_opt bind gf_mode gf_set_est gf_cm gf_set_gyro gf_queues gf_imu] in *.
        rewrite Ei in *. cbn [of_opt bind gf_mode gf_set_est gf_cm gf_set_gyro gf_queues gf_imu gf_set_imu gf_P] in *. eexists. split; [reflexivity|]. destruct KR as [KI KC]. constructor.
        -- constructor; cbn; auto; [exists []; auto|exists z; auto|exists []; auto].
        -- exists qg. cbn. rewrite Eg, app_nil_r. auto.
        -- exists (map Datatypes.inl qi), []. cbn. rewrite Ei, u_imus_inl, u_avs_inl, !app_nil_r. repeat split; auto. apply sl_none.
      * eexists. split; [reflexivity|]. destruct KR as [KI KC]. constructor.
        -- constructor; cbn; auto; [exists qg; auto|exists z; rewrite Es; split; [auto|discriminate]|exists qi; auto].
        -- exists []. cbn. auto.
        -- exists [], []. cbn. rewrite app_nil_r. repeat split; auto. constructor.
Qed.
Lemma run_iter k g : arr k g -> gf_init g = true -> exists g', ImuFilter_RunOnce g false = Ok g' /\ iter k g g'.
Proof.
  intros H Hi. pose proof H as []. destruct ar_gyro0 as (qg & Eg). destruct (gyro_total g qg ar_inv0 Eg) as (g1 & E1 & I1 & Eg1).
  destruct (prop_meta g g1 E1) as (M1 & M2 & M3 & M4 & M5).
  destruct (gyro_prop_inv g g1 E1) as (A1 & A2 & A3 & A4 & A5 & A6 & A7 & A8 & (tg & A9 & A10 & A11 & A12) & A13).
  assert (arr k g1) as H1.
  { apply (arr_set k g); auto; try congruence; [exists (tl qg); auto| |]; intros [q Eq]; exists q; congruence. }
  assert (exists u, q_of (gf_gyro g) = u ++ q_of (gf_gyro g1) /\ (forall m, gf_latest g1 = Some m -> gf_latest g = Some m \/ In m u)) as HG.
  { exists tg. split; [exact A9|]. intros m Hm. destruct k.
    - rewrite (M5 (ar_cm0 Hi)) in Hm. destruct (q_of (gf_gyro g)) as [|m' q] eqn:Eq; [left; exact Hm|]. right. injection Hm as <-.
      destruct tg as [|y [|]]; cbn in A10; [|cbn in A9; injection A9 as -> _; left; reflexivity|lia].
      exfalso. rewrite (A11 eq_refl) in Eg1. rewrite Eg in Eq, Eg1. cbn in Eq. subst qg. injection Eg1 as E. apply (f_equal (@length _)) in E. cbn in E. lia.
    - left. rewrite A13 in Hm; [exact Hm|]. rewrite (ar_cm0 Hi). discriminate. }
  unfold ImuFilter_RunOnce. rewrite Hi, ar_pm0, E1. cbn [bind]. rewrite A5, (ar_cm0 Hi). destruct k; cbn match.
  - destruct ar_buf0 as [Hs (qa & Ea)]. unfold AngVelCorrection. rewrite A3, Ea. cbn [of_opt bind]. destruct qa as [|a qa].
    + exists g1. split; [reflexivity|]. constructor; [exact H1|exact HG|]. exists [], []. rewrite A4, A3, app_nil_r. cbn. repeat split; auto; [constructor|intros m []].
    + cbn [maybe_clear bind]. destruct (gf_latest g1) as [m|] eqn:El.
      * destruct (correct_enc_ok g1 m a I1) as (x & P & E2 & I2 & _). rewrite E2. cbn [bind gf_push fst snd gf_set_out gf_set_est gf_av gf_out]. rewrite A3, Ea. cbn [of_opt bind pop].
        eexists. split; [reflexivity|]. constructor.
        -- apply (arr_set KAv g1); auto; try reflexivity; [same I2|exists (tl qg); auto|intros _; exists qa; reflexivity].
        -- cbn. rewrite El. exact HG.
        -- exists [Datatypes.inr a], [mkImu (av_t a) (i_q m) (head3 x) (i_a m)]. cbn. rewrite A4, Ea. repeat split; auto.
           ++ constructor; [reflexivity|constructor].
           ++ intros m' [<-|[]]. exists m. auto.
      * cbn [bind]. rewrite A3, Ea. cbn [of_opt bind pop]. eexists. split; [reflexivity|]. constructor.
        -- apply (arr_set KAv g1); auto; try reflexivity; [same I1|exists (tl qg); auto|intros _; exists qa; reflexivity].
        -- cbn. rewrite El. exact HG.
        -- exists [Datatypes.inr a], []. cbn. rewrite A4, Ea, app_nil_r. repeat split; auto; [repeat constructor|intros m []].
  - destruct ar_buf0 as (qi & Ei). unfold SingleImuCorrection. rewrite A1, Ei. cbn [of_opt bind].
    assert (iter KImu g g1) as Hid.
    { constructor; [exact H1|exact HG|]. exists [], []. rewrite A4, A1, app_nil_r. cbn. repeat split; auto. constructor. }
    destruct qi as [|m qi]; [exists g1; auto|]. destruct (Rle_dec _ _); [|exists g1; auto]. destruct (Rle_dec _ _); [|exists g1; auto]. cbn [maybe_clear bind].
    assert (gyro_inv (gf_set_imu g1 qi)) as I1' by same I1. destruct (correct_imu_ok _ m I1') as (x & P & E2 & I2 & _). rewrite E2. cbn [bind gf_push fst snd].
    eexists. split; [reflexivity|]. constructor.
    + apply (arr_set KImu g1); auto; try reflexivity; [same I2|exists (tl qg); auto|intros _; exists qi; reflexivity].
    + exact HG.
    + exists [Datatypes.inl m], [mkImu (i_t m) (i_q m) (head3 x) (i_a m)]. cbn. rewrite A4, Ei. repeat split; auto. constructor. constructor.
Qed.
Lemma iter_total k g : arr k g -> exists g', ImuFilter_RunOnce g false = Ok g' /\ iter k g g'.
Proof. intros H. destruct (gf_init g) eqn:E; [apply run_iter|apply init_iter]; auto. Qed.

(** ** the program seen by the estimator *)
Definition gop_of (v : sysev) : option gop :=
  match v with SGyro m => Some (GGyro m) | SImu m => Some (GImu m) | SAv a => Some (GAv a) | SFilter => Some GRun | SProg _ => None end.
Fixpoint trans (g : gfilt) (vs : list sysev) : list event :=
  match vs with
  | [] => []
  | v :: vs =>
    match v, gop_of v with
    | SProg w, _ => w :: trans g vs
    | _, Some o => match gf_step g o with Ok g' => map EImu (gf_out g') ++ trans (gf_set_out g' []) vs | Fail _ => [] end
    | _, None => []
    end
  end.
Definition k_adds (k : kind) : list gadd := match k with KAv => [AGyro; AAv] | KImu => [AGyro; AImu] end.
(** how a step changes the filter; its results go to the estimator *)
Record gst (k : kind) (g g' : gfilt) (v : sysev) (new : list imu) : Prop := {
  gs_arr : arr k g'; gs_out : gf_out g' = [];
  gs_gyro : exists u, q_of (gf_gyro g) ++ s_gyros [v] = u ++ q_of (gf_gyro g') /\ (forall m, gf_latest g' = Some m -> gf_latest g = Some m \/ In m u);
  gs_new : match k with
    | KAv => exists u, q_of (gf_av g) ++ s_avs [v] = u ++ q_of (gf_av g') /\ sublist (map i_t new) (map av_t u) /\
        (forall m, In m new -> exists x, gf_latest g' = Some x /\ i_q m = i_q x /\ i_a m = i_a x)
    | KImu => exists u, q_of (gf_imu g) ++ s_imus [v] = u ++ q_of (gf_imu g') /\ sublist (map (fun m => (i_t m, i_q m, i_a m)) new) (map (fun m => (i_t m, i_q m, i_a m)) u)
    end }.
Lemma emits_sub u new : emits u new -> sublist (map i_t new) (map u_time u).
Proof. induction 1; cbn; [constructor|constructor 3; auto|]. rewrite H. constructor; auto. Qed.
Lemma u_time_avs u : u_imus u = [] -> map u_time u = map av_t (u_avs u).
Proof. induction u as [|[m|a] u IH]; cbn; intros E; [reflexivity|discriminate|]. rewrite IH by exact E. reflexivity. Qed.
Lemma gstep_ok k g v : arr k g -> gf_out g = [] -> event_ok (k_adds k) v ->
  match gop_of v with
  | Some o => exists g1, gf_step g o = Ok g1 /\ gst k g (gf_set_out g1 []) v (gf_out g1) /\ (v <> SFilter -> gf_out g1 = [])
  | None => True
  end.
Proof.
  intros H Ho He. pose proof H as []. destruct v as [m|m|a| |w]; cbn [gop_of gf_step]; [| | | |exact I].
  - destruct ar_gyro0 as (q & E). rewrite E. cbn [of_opt bind]. eexists. split; [reflexivity|]. split; [|intros _; exact Ho]. constructor.
    + apply (arr_set k g); auto; [same ar_inv0|eexists; reflexivity].
    + reflexivity.
    + exists []. cbn. rewrite E. auto.
    + cbn. rewrite Ho. destruct k; (exists []; cbn; rewrite app_nil_r; repeat split; auto; [constructor|intros m' []]) || (exists []; cbn; rewrite app_nil_r; repeat split; auto; constructor).
  - destruct k; [cbn in He; destruct He as [|[|[]]]; discriminate|]. destruct ar_buf0 as (q & E). rewrite E. cbn [of_opt bind]. eexists. split; [reflexivity|]. split; [|intros _; exact Ho]. constructor.
    + apply (arr_set KImu g); auto; [same ar_inv0|intros _; eexists; reflexivity].
    + reflexivity.
    + exists []. cbn. rewrite app_nil_r. auto.
    + cbn. rewrite Ho, E. exists []. cbn. split; [reflexivity|constructor].
  - destruct k; [|cbn in He; destruct He as [|[|[]]]; discriminate]. destruct ar_buf0 as (Hs & q & E). rewrite E. cbn [of_opt bind]. eexists. split; [reflexivity|]. split; [|intros _; exact Ho]. constructor.
    + apply (arr_set KAv g); auto; [same ar_inv0|intros _; eexists; reflexivity].
    + reflexivity.
    + exists []. cbn. rewrite app_nil_r. auto.
    + cbn. rewrite Ho, E. exists []. cbn. split; [reflexivity|]. split; [constructor|intros m []].
  - destruct (iter_total k g H) as (g1 & E & [A (u & B1 & B2) (u2 & new & C1 & C2)]). exists g1. split; [exact E|]. split; [|congruence]. constructor.
    + apply (arr_set k g1); auto; [same (ar_inv _ _ A)|exact (ar_gyro _ _ A)].
    + reflexivity.
    + exists u. cbn. rewrite app_nil_r. auto.
    + cbn. rewrite C1, Ho. cbn [app]. destruct k; destruct C2 as (D1 & D2 & D3).
      * destruct D3 as [D3 D4]. exists (u_avs u2). rewrite app_nil_r. split; [exact D1|]. split; [|exact D4]. rewrite <- (u_time_avs u2 D2). apply emits_sub. exact D3.
      * exists (u_imus u2). rewrite app_nil_r. auto.
Qed.
Lemma sl_app {A} (a a' b b' : list A) : sublist a a' -> sublist b b' -> sublist (a ++ b) (a' ++ b').
Proof. induction 1; cbn; auto; constructor; auto. Qed.
Lemma samples_app a b : samples (a ++ b) = samples a ++ samples b.
Proof. induction a as [|v a IH]; [reflexivity|]. cbn [app]. rewrite !samples_cons, IH, app_assoc. reflexivity. Qed.
Lemma samples_imus l : samples (map EImu l) = l. Proof. induction l; cbn; congruence. Qed.

Lemma fold_hand l : forall e, foldM est_step e (map OImu l) = prog_run e (map EImu l).
Proof. unfold prog_run. induction l as [|m l IH]; intros e; [reflexivity|]. cbn [map foldM prog_step]. destruct (est_step e (OImu m)); [apply IH|reflexivity]. Qed.
Lemma prog_run_app a b e : prog_run e (a ++ b) = (let* e := prog_run e a in prog_run e b). Proof. apply foldM_app. Qed.
Lemma out_nil g : gf_out g = [] -> gf_set_out g [] = g. Proof. destruct g; cbn; intros ->; reflexivity. Qed.

Lemma sys_cons g e v vs : sys_run (g, e) (v :: vs) = (let* s := sys_step (g, e) v in sys_run s vs). Proof. reflexivity. Qed.
Lemma trans_run k : forall vs g e, arr k g -> gf_out g = [] -> Forall (event_ok (k_adds k)) vs ->
  exists g', arr k g' /\ gf_out g' = [] /\ sys_run (g, e) vs = (let* e' := prog_run e (trans g vs) in Ok (g', e')).
Proof.
  induction vs as [|v vs IH]; intros g e H Ho Hv; [exists g; auto|]. inversion Hv as [|? ? Hv1 Hv2]; subst. rewrite sys_cons.
  pose proof (gstep_ok k g v H Ho Hv1) as HS. destruct v as [m|m|a| |w].
  5:{ cbn [sys_step trans gop_of]. destruct (prog_step e w) as [e1|er] eqn:E1.
      - destruct (IH g e1 H Ho Hv2) as (g' & A & B & C). exists g'. split; [exact A|]. split; [exact B|]. cbn [bind]. rewrite C. unfold prog_run. cbn [foldM]. rewrite E1. reflexivity.
      - exists g. split; [exact H|]. split; [exact Ho|]. unfold prog_run. cbn [foldM]. rewrite E1. reflexivity. }
  4:{ destruct HS as (g1 & E1 & [A B _ _] & _). destruct (IH (gf_set_out g1 []) e A B Hv2) as (g' & X & Y & _).
      cbn [sys_step trans gop_of]. rewrite E1. cbn [bind]. unfold hand_over. rewrite fold_hand, prog_run_app. destruct (prog_run e (map EImu (gf_out g1))) as [e1|er]; cbn [bind].
      - apply IH; auto.
      - exists g'. auto. }
  all: destruct HS as (g1 & E1 & [A B _ _] & N); assert (gf_out g1 = []) as N1 by (apply N; discriminate); rewrite (out_nil _ N1) in A;
    cbn [sys_step trans gop_of]; rewrite E1, N1; cbn [bind map app]; rewrite (out_nil _ N1); apply IH; auto.
Qed.
Lemma trans_split : forall vs g pre l post, trans g vs = pre ++ EIter l :: post -> exists v1 v2, vs = v1 ++ SProg (EIter l) :: v2 /\ trans g v1 = pre.
Proof.
  assert (forall ms pre l post r, map EImu ms ++ r = pre ++ EIter l :: post -> exists pre', pre = map EImu ms ++ pre' /\ r = pre' ++ EIter l :: post) as HM.
  { induction ms as [|m ms IH]; intros pre l post r E; [exists pre; auto|]. destruct pre as [|w pre]; cbn in E; [discriminate|]. injection E as <- E.
    destruct (IH _ _ _ _ E) as (p' & -> & E'). exists p'. auto. }
  induction vs as [|v vs IH]; intros g pre l post E; [destruct pre; discriminate|].
  assert (forall o, gop_of v = Some o -> match gf_step g o with Ok g' => map EImu (gf_out g') ++ trans (gf_set_out g' []) vs | Fail _ => [] end = pre ++ EIter l :: post ->
    exists v1 v2, v :: vs = v1 ++ SProg (EIter l) :: v2 /\ trans g v1 = pre) as HG.
  { intros o Eo X. destruct (gf_step g o) as [g'|] eqn:Es; [|destruct pre; discriminate]. destruct (HM _ _ _ _ _ X) as (p' & -> & X'). destruct (IH _ _ _ _ X') as (v1 & v2 & -> & T).
    exists (v :: v1), v2. split; [reflexivity|]. cbn [trans]. destruct v; cbn in Eo; try discriminate; injection Eo as <-; cbn [gop_of]; rewrite Es, T; reflexivity. }
  destruct v as [m|m|a| |w]; try (apply (HG _ eq_refl); exact E). cbn [trans gop_of] in E. destruct pre as [|w' pre]; cbn in E; injection E as -> E.
  - exists [], vs. auto.
  - destruct (IH _ _ _ _ E) as (v1 & v2 & -> & T). exists (SProg w' :: v1), v2. split; [reflexivity|]. cbn [trans gop_of]. rewrite T. reflexivity.
Qed.

(** ** the stream of filtered samples *)
Definition key (m : imu) := (i_t m, i_q m, i_a m).
Definition unitq (m : imu) : Prop := qnorm2 (i_q m) = 1.
Lemma s_gyros_cons v vs : s_gyros (v :: vs) = s_gyros [v] ++ s_gyros vs. Proof. unfold s_gyros. cbn. rewrite app_nil_r. reflexivity. Qed.
Lemma s_imus_cons v vs : s_imus (v :: vs) = s_imus [v] ++ s_imus vs. Proof. unfold s_imus. cbn. rewrite app_nil_r. reflexivity. Qed.
Lemma s_avs_cons v vs : s_avs (v :: vs) = s_avs [v] ++ s_avs vs. Proof. unfold s_avs. cbn. rewrite app_nil_r. reflexivity. Qed.
Lemma trans_cons k g v vs : arr k g -> gf_out g = [] -> event_ok (k_adds k) v ->
  (exists w, v = SProg w /\ trans g (v :: vs) = w :: trans g vs /\ samples [w] = []) \/
  (exists g' new, gst k g g' v new /\ samples (trans g (v :: vs)) = new ++ samples (trans g' vs)).
Proof.
  intros H Ho He. pose proof (gstep_ok k g v H Ho He) as HS. destruct v as [m|m|a| |w].
  5:{ left. exists w. split; [reflexivity|]. split; [reflexivity|]. destruct w; auto. contradiction He. }
  all: right; destruct HS as (g1 & E1 & G & _); exists (gf_set_out g1 []), (gf_out g1); split; [exact G|]; cbn [trans gop_of]; rewrite E1, samples_app, samples_imus; reflexivity.
Qed.
Lemma stream_imu : forall vs g, arr KImu g -> gf_out g = [] -> Forall (event_ok (k_adds KImu)) vs ->
  sublist (map key (samples (trans g vs))) (map key (q_of (gf_imu g) ++ s_imus vs)).
Proof.
  induction vs as [|v vs IH]; intros g H Ho Hv; [apply sl_none|]. inversion Hv as [|? ? Hv1 Hv2]; subst. rewrite s_imus_cons.
  destruct (trans_cons KImu g v vs H Ho Hv1) as [(w & -> & E & Ew)|(g' & new & [A B _ (u & C1 & C2)] & E)].
  - rewrite E. change (w :: trans g vs) with ([w] ++ trans g vs). rewrite samples_app, Ew. cbn [app]. apply IH; auto.
  - rewrite E, map_app, app_assoc, C1, <- app_assoc, map_app. apply sl_app; [exact C2|]. apply IH; auto.
Qed.
Lemma stream_av : forall vs g, arr KAv g -> gf_out g = [] -> Forall (event_ok (k_adds KAv)) vs ->
  sublist (map i_t (samples (trans g vs))) (map av_t (q_of (gf_av g) ++ s_avs vs)) /\
  ((forall m, gf_latest g = Some m -> unitq m) -> Forall unitq (q_of (gf_gyro g) ++ s_gyros vs) -> Forall unitq (samples (trans g vs))).
Proof.
  induction vs as [|v vs IH]; intros g H Ho Hv; [split; [apply sl_none|constructor]|]. inversion Hv as [|? ? Hv1 Hv2]; subst. rewrite s_avs_cons, s_gyros_cons.
  destruct (trans_cons KAv g v vs H Ho Hv1) as [(w & -> & E & Ew)|(g' & new & [A B (u' & D1 & D2) (u & C1 & C2 & C3)] & E)].
  - rewrite E. change (w :: trans g vs) with ([w] ++ trans g vs). rewrite samples_app, Ew. cbn [app]. apply IH; auto.
  - rewrite E. destruct (IH g' A B Hv2) as [IH1 IH2]. split.
    + rewrite map_app, app_assoc, C1, <- app_assoc, map_app. apply sl_app; [exact C2|exact IH1].
    + intros HL HU. rewrite app_assoc, D1, <- app_assoc in HU. apply Forall_app in HU. destruct HU as [U1 U2].
      assert (forall m, gf_latest g' = Some m -> unitq m) as HL'.
      { intros m Hm. destruct (D2 m Hm) as [X|X]; [apply HL; exact X|]. exact (proj1 (Forall_forall _ _) U1 m X). }
      apply Forall_app. split; [|apply IH2; auto]. apply Forall_forall. intros m Hm. destruct (C3 m Hm) as (x & X1 & X2 & _). unfold unitq. rewrite X2. exact (HL' x X1).
Qed.
Lemma nondec_sub : forall l l', sublist l l' -> forall x y, x <= y -> nondec y l' -> nondec x l.
Proof.
  induction 1 as [|z l l' H IH|z l l' H IH]; intros x y Hx Hn; [exact I| |]; destruct Hn as [N1 N2].
  - split; [lra|]. apply (IH z z); [lra|exact N2].
  - apply (IH x z); [lra|exact N2].
Qed.
Lemma sorted_sub l l' : sublist l l' -> sorted l' -> sorted l.
Proof.
  induction 1 as [|z l l' H IH|z l l' H IH]; cbn [sorted]; intros Hs; auto.
  - eapply nondec_sub; [exact H| |exact Hs]. lra.
  - destruct l as [|x l]; [exact I|]. cbn [sorted]. clear IH. revert z Hs. remember (x :: l) as xl eqn:El. revert x l El.
    induction H as [|w a b H IH|w a b H IH]; intros x l El z Hs; [discriminate| |]; destruct Hs as [N1 N2].
    + injection El as -> ->. eapply nondec_sub; [exact H| |exact N2]. lra.
    + eapply IH; eauto.
Qed.
Lemma sub_forall {A} (P : A -> Prop) l l' : sublist l l' -> Forall P l' -> Forall P l.
Proof. induction 1; intros H0; auto; inversion H0; subst; auto. Qed.
Lemma sub_map {A B} (f : A -> B) l l' : sublist l l' -> sublist (map f l) (map f l').
Proof. induction 1; cbn; constructor; auto. Qed.

(** ** programs *)
Definition fprog_ok (p : fprogram) : Prop :=
  config_ok (fp_est p) /\ gcfg_ok (fp_gyro p) /\
  ((fp_adds p = [AGyro; AAv] /\ q_static (fp_gyro p) <> Some true) \/ (fp_adds p = [AGyro; AImu] /\ q_size (fp_gyro p) <> Some 0%Z)).
Lemma start_arr p : fprog_ok p -> exists k, fp_adds p = k_adds k /\ arr k (fst (fp_start p)) /\ gf_out (fst (fp_start p)) = [] /\
  q_of (gf_imu (fst (fp_start p))) = [] /\ q_of (gf_av (fst (fp_start p))) = [] /\ q_of (gf_gyro (fst (fp_start p))) = [] /\ gf_latest (fst (fp_start p)) = None.
Proof.
  intros (_ & HG & HA). destruct p as [f c l]. cbn [fp_est fp_gyro fp_adds fp_start fst] in *.
  assert (gyro_inv (gf_setup (ImuAngVelEKF_config c) l)) as HI by (apply setup_inv, make_inv; exact HG).
  destruct HA as [[-> Hs]|[-> Hz]]; [exists KAv|exists KImu]; (split; [reflexivity|]); (split; [|repeat split]); constructor; try exact HI; try reflexivity.
  - exists []. reflexivity.
  - eexists. split; [reflexivity|]. cbn. intros E. destruct (q_static c) as [[]|]; cbn in E; congruence.
  - cbn. discriminate.
  - split; [|exists []; reflexivity]. cbn. destruct (q_static c) as [[]|]; cbn; congruence.
  - exists []. reflexivity.
  - eexists. split; [reflexivity|]. intros _. cbn. destruct (q_size c); cbn; [congruence|discriminate].
  - cbn. discriminate.
  - exists []. reflexivity.
Qed.
Lemma thm_stream p vs : fprog_ok p -> inputs_ok (fp_adds p) vs -> imu_stream (samples (trans (fst (fp_start p)) vs)).
Proof.
  intros HP (HE & [HI1 HI2] & HA & HU). destruct (start_arr p HP) as (k & Ek & A & B & C1 & C2 & C3 & C4). rewrite Ek in *. destruct k.
  - destruct (stream_av vs _ A B HE) as [S1 S2]. split.
    + apply S2; [rewrite C4; discriminate|]. rewrite C3. cbn [app]. apply HU. cbn. tauto.
    + eapply sorted_sub; [exact S1|]. rewrite C2. exact HA.
  - pose proof (stream_imu vs _ A B HE) as S. rewrite C1 in S. cbn [app] in S. split.
    + apply (sub_map (fun x => snd (fst x))) in S. rewrite !map_map in S. cbn in S. assert (Forall (fun q => qnorm2 q = 1) (map i_q (samples (trans (fst (fp_start p)) vs)))) as F.
      { eapply sub_forall; [exact S|]. apply Forall_map. exact HI1. }
      apply Forall_map in F. exact F.
    + apply (sub_map (fun x => fst (fst x))) in S. rewrite !map_map in S. cbn in S. eapply sorted_sub; [exact S|exact HI2].
Qed.
Lemma sys_split p vs : fprog_ok p -> Forall (event_ok (fp_adds p)) vs -> exists g', gf_out g' = [] /\
  sys_run (fp_start p) vs = (let* e' := prog_run (build (fp_est p)) (trans (fst (fp_start p)) vs) in Ok (g', e')).
Proof.
  intros HP HE. destruct (start_arr p HP) as (k & Ek & A & B & _). rewrite Ek in HE. destruct (trans_run k vs _ (build (fp_est p)) A B HE) as (g' & _ & X & Y). exists g'. split; [exact X|exact Y].
Qed.
(** ** theorems *)
Lemma thm_sys_safe p vs : fprog_ok p -> inputs_ok (fp_adds p) vs ->
  match sys_run (fp_start p) vs with
  | Ok (g, e) => (exists n, wfp (2 + n) (e_state e) /\ psd (sP (e_state e))) /\ Forall sound (e_out e) /\ Forall sound (e_logq e) /\
      (forall s, e_pending e = Some s -> sound s) /\ (e_enabled e = true -> sound (e_state e))
  | Fail er => er = Spin /\ exists pre l post g1 e1, vs = pre ++ SProg (EIter l) :: post /\ sys_run (fp_start p) pre = Ok (g1, e1) /\
      e_enabled e1 = false /\ BiasInitialized e1 = Ok true /\ ~ fed_all (e_corrs e1) l
  end.
Proof.
  intros HP HI. pose proof HI as [HE _]. destruct (sys_split p vs HP HE) as (g' & _ & ->). pose proof (thm_stream p vs HP HI) as HS. pose proof HP as (HC & _ & _).
  pose proof (thm_loop_safe (fp_est p) _ HC HS) as H. destruct (prog_run _ _) as [e|er]; cbn [bind]; [exact H|].
  destruct H as (-> & pre & l & post & e1 & E & R & X). split; [reflexivity|]. destruct (trans_split _ _ _ _ _ E) as (v1 & v2 & -> & T).
  apply Forall_app in HE. destruct HE as [HE1 _]. destruct (sys_split p v1 HP HE1) as (g1 & _ & R1). rewrite T, R in R1. exists v1, l, v2, g1, e1. split; [reflexivity|]. split; [exact R1|exact X].
Qed.
Lemma thm_sys_protocol p vs g e : fprog_ok p -> inputs_ok (fp_adds p) vs -> sys_run (fp_start p) vs = Ok (g, e) ->
  exists os, reachable (fp_est p) os e /\
    (In AAv (fp_adds p) -> sublist (map i_t (imus os)) (map av_t (s_avs vs)) /\ forall m, In m (imus os) -> exists x, In x (s_gyros vs) /\ i_q m = i_q x /\ i_a m = i_a x) /\
    (In AImu (fp_adds p) -> sublist (map (fun m => (i_t m, i_q m, i_a m)) (imus os)) (map (fun m => (i_t m, i_q m, i_a m)) (s_imus vs))).
Proof.
  intros HP HI HR. pose proof HI as [HE _]. destruct (sys_split p vs HP HE) as (g' & _ & E). rewrite HR in E. pose proof (thm_stream p vs HP HI) as HS. pose proof HP as (HC & _ & _).
  destruct (prog_run _ _) as [e'|] eqn:R; [|discriminate]. cbn in E. injection E as -> ->. destruct (thm_loop_protocol _ _ _ HC HS R) as (os & A & B). exists os. split; [exact A|]. rewrite B.
  destruct (start_arr p HP) as (k & Ek & X & Y & C1 & C2 & C3 & C4). rewrite Ek in *. destruct k; split; intros Hin.
  2,3: exfalso; cbn in Hin; intuition discriminate.
  - destruct (stream_av vs _ X Y HE) as [S1 S2]. rewrite C2 in S1. split; [exact S1|].
    assert (forall vs g, arr KAv g -> gf_out g = [] -> Forall (event_ok (k_adds KAv)) vs -> forall m, In m (samples (trans g vs)) ->
      exists x, (gf_latest g = Some x \/ In x (q_of (gf_gyro g) ++ s_gyros vs)) /\ i_q m = i_q x /\ i_a m = i_a x) as HG.
    { clear. induction vs as [|v vs IH]; intros g H Ho Hv m Hm; [contradiction|]. inversion Hv as [|? ? Hv1 Hv2]; subst. rewrite s_gyros_cons.
      destruct (trans_cons KAv g v vs H Ho Hv1) as [(w & -> & E & Ew)|(g' & new & [A B (u' & D1 & D2) (u & C1 & C2 & C3)] & E)]; rewrite E in Hm.
      - change (w :: trans g vs) with ([w] ++ trans g vs) in Hm. rewrite samples_app, Ew in Hm. cbn [app] in Hm |- *. apply IH; auto.
      - assert (forall x, gf_latest g' = Some x -> gf_latest g = Some x \/ In x (q_of (gf_gyro g) ++ s_gyros [v] ++ s_gyros vs)) as HL.
        { intros x Hx. destruct (D2 x Hx) as [Z|Z]; [left; exact Z|]. right. rewrite app_assoc, D1, <- app_assoc. apply in_or_app. left. exact Z. }
        apply in_app_or in Hm. destruct Hm as [Hm|Hm].
        + destruct (C3 m Hm) as (x & X1 & X2). exists x. split; [apply HL; exact X1|exact X2].
        + destruct (IH g' A B Hv2 m Hm) as (x & [X1|X1] & X2); exists x; (split; [|exact X2]); [apply HL; exact X1|].
          right. rewrite app_assoc, D1, <- app_assoc. apply in_or_app. right. exact X1. }
    intros m Hm. destruct (HG vs _ X Y HE m Hm) as (x & [Z|Z] & W); [rewrite C4 in Z; discriminate|]. rewrite C3 in Z. exists x. auto.
  - pose proof (stream_imu vs _ X Y HE) as S. rewrite C1 in S. exact S.
Qed.
Lemma thm_filter_programs_ok : Forall fprog_ok filter_programs.
Proof.
  assert (forall f, In f shipped -> config_ok f) as HC by (apply Forall_forall; exact thm_shipped_ok).
  assert (forall a b c d e f h i j k, gcfg_ok (mkGCfg a b c d e f h i j k k (Some 0.1) (Some 0.1))) as G1 by (intros; split; cbn; intros [=]; lra).
  assert (forall a b c d e f h i j k, gcfg_ok (mkGCfg a b c d e f h i j k k (Some 0.01) (Some 0.01))) as G2 by (intros; split; cbn; intros [=]; lra).
  unfold filter_programs. repeat apply Forall_cons; try apply Forall_nil; (split; [apply HC; cbn; tauto|]); (split; [apply G1 || apply G2|]).
  - left. split; [reflexivity|discriminate].
  - right. split; [reflexivity|discriminate].
  - right. split; [reflexivity|discriminate].
Qed.

(** *** without samples nothing happens *)
Record still (e : est) : Prop := { sl_ok : est_ok [] e; sl_en : e_enabled e = false; sl_out : e_out e = []; sl_q : imu_queue e = [] }.
Lemma still_run : forall vs e, still e -> samples vs = [] -> exists e', prog_run e vs = Ok e' /\ still e'.
Proof.
  induction vs as [|v vs IH]; intros e H Hs; [exists e; auto|]. rewrite samples_cons in Hs. apply app_eq_nil in Hs. destruct Hs as [Hv Hs].
  destruct H as [Hok Hen Hout Hq]. destruct (op_of_step [] e v Hok) as [Es Ha].
  assert (est_ok (op_imu (op_of e v) ++ []) e) as Hok' by (rewrite op_of_imu, Hv; exact Hok).
  destruct (ok_prop _ _ Hok) as (ip & Hip & _). assert (ip_queue ip = []) as Hiq by (unfold imu_queue in Hq; rewrite Hip in Hq; exact Hq).
  assert (exists e1, prog_step e v = Ok e1 /\ e_enabled e1 = false /\ e_out e1 = [] /\ imu_queue e1 = []) as (e1 & E1 & F1 & F2 & F3).
  { destruct v as [l|m|i m|i m| | |]; cbn [prog_step]; try discriminate.
    - unfold main_iteration, BiasInitialized. rewrite Hen, Hip. cbn [of_opt bind]. destruct (ip_bias_init ip) eqn:Eb.
      + unfold InitState. rewrite Hip. cbn [of_opt bind]. unfold set_initial_state. rewrite Hiq. cbn [bind negb]. eexists. split; [reflexivity|]. cbn. unfold imu_queue. cbn. auto.
      + destruct (step_safe _ _ _ Hok' Ha) as [(e1 & X & _)|[X (l' & El & _)]]; cbn [op_of est_step] in *; rewrite Hen in *; unfold BiasInitialized in *; rewrite Hip in *; cbn [of_opt bind] in *; rewrite Eb in *; [|discriminate].
        cbn [est_step] in X. rewrite X. exists e1. split; [reflexivity|]. unfold InitBias in X. rewrite Hip in X. cbn [of_opt bind] in X. destruct (InitImuBias ip) as [ip'|] eqn:E; cbn [bind] in X; [|discriminate]. injection X as <-. cbn.
        unfold imu_queue. cbn. repeat split; auto. unfold InitImuBias in E. rewrite Hiq in E. destruct (negb _); [injection E as <-; exact Hiq|]. destruct (size_lt _ _); [injection E as <-; exact Hiq|].
        destruct (check _ _); cbn [bind] in E; [|discriminate]. injection E as <-. exact Hiq.
    - cbn [est_step]. eexists. split; [reflexivity|]. cbn. unfold imu_queue. cbn. rewrite Hip. auto.
    - cbn [est_step]. eexists. split; [reflexivity|]. cbn. unfold imu_queue. cbn. rewrite Hip. auto.
    - cbn [est_step]. eexists. split; [reflexivity|]. cbn. rewrite Hout. unfold imu_queue. cbn. rewrite Hip. auto.
    - exists (LogPop e). split; [reflexivity|]. unfold LogPop. destruct (e_pending e); [auto|]. destruct (e_logq e); [auto|]. cbn. unfold imu_queue. cbn. rewrite Hip. auto.
    - destruct (step_safe _ _ _ Hok' Ha) as [(e1 & X & _)|[X (l' & El & _)]]; cbn [op_of est_step] in *; [|discriminate]. exists e1. split; [exact X|]. unfold LogWrite in X.
      destruct (e_pending e) as [x|]; [|injection X as <-; auto]. destruct (get_time x); cbn [bind] in X; [|discriminate]. destruct (_ && _)%bool.
      + destruct (get_world_rotation x); cbn [bind] in X; [|discriminate]. destruct (get_world_position x); cbn [bind] in X; [|discriminate]. destruct (get_world_velocity x); cbn [bind] in X; [|discriminate].
        destruct (get_body_velocity x); cbn [bind] in X; [|discriminate]. injection X as <-. cbn. unfold imu_queue. cbn. rewrite Hip. auto.
      + injection X as <-. cbn. unfold imu_queue. cbn. rewrite Hip. auto. }
  unfold prog_run. cbn [foldM]. rewrite E1. cbn [bind]. apply IH; [|exact Hs]. constructor; auto.
  destruct (step_safe _ _ _ Hok' Ha) as [(e2 & X & Y)|[X _]]; rewrite <- Es, E1 in X; [injection X as <-; exact Y|discriminate].
Qed.

(** *** a sample that is too old blocks the filter for ever *)
Record stuck (m : imu) (g : gfilt) : Prop := {
  sk_arr : arr KImu g; sk_init : gf_init g = true; sk_out : gf_out g = []; sk_q : exists q, gf_imu g = Some (m :: q);
  sk_last : gf_thr g < gf_last g - i_t m; sk_gyro : forall x, In x (q_of (gf_gyro g)) -> gf_thr g < i_t x - i_t m }.
Lemma stuck_step m g v : stuck m g -> event_ok (k_adds KImu) v -> (forall x, v = SGyro x -> gf_thr g < i_t x - i_t m) ->
  match gop_of v with Some o => exists g', gf_step g o = Ok g' /\ stuck m g' /\ gf_thr g' = gf_thr g | None => True end.
Proof.
  intros [A Hi Ho (q & Eq) Hl Hg] He Hx. pose proof A as []. destruct ar_gyro0 as (qg & Eg). destruct v as [x|x|a| |w]; cbn [gop_of gf_step]; [| | | |exact I].
  - rewrite Eg. cbn [of_opt bind]. eexists. split; [reflexivity|]. split; [|reflexivity]. constructor; auto.
    + apply (arr_set KImu g); auto; [same ar_inv0|eexists; reflexivity].
    + exists q. exact Eq.
    + cbn. intros y Hy. apply in_app_or in Hy. destruct Hy as [Hy|[<-|[]]]; [apply Hg; rewrite Eg; exact Hy|apply Hx; reflexivity].
  - rewrite Eq. cbn [of_opt bind]. eexists. split; [reflexivity|]. split; [|reflexivity]. constructor; auto.
    + apply (arr_set KImu g); auto; [same ar_inv0|exists qg; exact Eg|intros _; eexists; reflexivity].
    + exists (q ++ [x]). reflexivity.
  - cbn in He. intuition discriminate.
  - unfold ImuFilter_RunOnce. rewrite Hi, ar_pm0. destruct (gyro_total g qg ar_inv0 Eg) as (g1 & E1 & I1 & Eg1). rewrite E1. cbn [bind].
    destruct (prop_meta g g1 E1) as (M1 & M2 & M3 & M4 & M5).
    destruct (gyro_prop_inv g g1 E1) as (A1 & A2 & A3 & A4 & A5 & A6 & A7 & A8 & (tg & A9 & A10 & A11 & A12) & A13).
    rewrite A5, (ar_cm0 Hi). unfold SingleImuCorrection. rewrite A1, Eq. cbn [of_opt bind].
    assert (gf_thr g1 < gf_last g1 - i_t m) as Hl1.
    { rewrite A8. destruct tg as [|y [|]]; cbn in A10; [rewrite (A11 eq_refl); auto| |lia]. rewrite (A12 y eq_refl). apply Hg. rewrite A9. left; reflexivity. }
    destruct (Rle_dec _ _) as [X|_]; [lra|]. cbn [maybe_clear]. exists g1. split; [reflexivity|]. split; [|exact A8]. constructor; auto; try congruence.
    + apply (arr_set KImu g); auto; try congruence; [exists (tl qg); auto| |]; intros [q' Eq']; exists q'; congruence.
    + exists q. congruence.
    + intros x Hin. rewrite A8. apply Hg. rewrite A9. apply in_or_app. right. exact Hin.
Qed.
Lemma stuck_run m : forall vs g, stuck m g -> Forall (event_ok (k_adds KImu)) vs -> (forall x, In x (s_gyros vs) -> gf_thr g < i_t x - i_t m) -> samples (trans g vs) = [].
Proof.
  induction vs as [|v vs IH]; intros g H Hv Hx; [reflexivity|]. inversion Hv as [|? ? Hv1 Hv2]; subst. rewrite s_gyros_cons in Hx.
  assert (forall x, v = SGyro x -> gf_thr g < i_t x - i_t m) as Hx1 by (intros x ->; apply Hx; left; reflexivity).
  assert (forall x, In x (s_gyros vs) -> gf_thr g < i_t x - i_t m) as Hx2 by (intros x Hin; apply Hx; apply in_or_app; right; exact Hin).
  pose proof (stuck_step m g v H Hv1 Hx1) as HS. destruct v as [x|x|a| |w].
  5:{ cbn [trans gop_of]. change (w :: trans g vs) with ([w] ++ trans g vs). rewrite samples_app, (IH g) by auto. destruct w; auto. contradiction Hv1. }
  all: destruct HS as (g' & E & K & T); cbn [trans gop_of]; rewrite E, (sk_out _ _ K), (out_nil _ (sk_out _ _ K)); cbn [map app]; apply IH; auto; rewrite T; exact Hx2.
Qed.
Lemma build_still f : config_ok f -> still (build f).
Proof. intros HC. constructor; [apply build_ok; [exact HC|split; [constructor|exact I]]|rewrite build_eq; reflexivity|rewrite build_eq; reflexivity|rewrite build_eq; reflexivity]. Qed.
Lemma thm_blocked p m x vs : fprog_ok p -> fp_adds p = [AGyro; AImu] -> q_static (fp_gyro p) <> Some true ->
  dflt (q_thr (fp_gyro p)) (3 / 100) < i_t m - i_t x -> Forall (event_ok (fp_adds p)) vs -> (forall y, In y (s_gyros vs) -> i_t m <= i_t y) ->
  exists g e, sys_run (fp_start p) ([SFilter; SGyro m; SFilter; SImu x] ++ vs) = Ok (g, e) /\ e_enabled e = false /\ e_out e = [].
Proof.
  intros HP Ha Hs Ht Hv Hy. assert (Forall (event_ok (fp_adds p)) ([SFilter; SGyro m; SFilter; SImu x] ++ vs)) as HE.
  { apply Forall_app. split; [|exact Hv]. rewrite Ha. repeat constructor; cbn; tauto. }
  destruct (sys_split p _ HP HE) as (g' & _ & ->). pose proof HP as (HC & HG & _).
  enough (samples (trans (fst (fp_start p)) ([SFilter; SGyro m; SFilter; SImu x] ++ vs)) = []) as HS.
  { destruct (still_run _ _ (build_still (fp_est p) HC) HS) as (e & -> & [S1 S2 S3 S4]). exists g', e. auto. }
  destruct p as [f c l]. cbn [fp_adds fp_gyro fp_est fp_start fst] in *. subst l.
  set (g0 := gf_setup _ _). assert (gyro_inv g0) as I0 by (apply setup_inv, make_inv; exact HG).
  assert (gf_static g0 = false) as Hst by (cbn; destruct (q_static c) as [[]|]; cbn; congruence).
  set (g1 := gf_mode (gf_mode g0 GYRO SINGLE_IMU 1 0 false) GYRO SINGLE_IMU 1 0 true).
  assert (gf_step g0 GRun = Ok g1) as E0.
  { cbn [gf_step]. unfold ImuFilter_RunOnce. change (gf_init g0) with false. cbn [maybe_clear bind]. unfold InitializeFilter. change (pick_method g0) with SINGLE_IMU.
    cbn [gf_mode gf_size gf_static]. rewrite Hst; change (gf_size g0) with (Some (dflt (q_size c) 250%Z)); cbn [of_opt bind]; rewrite Bool.andb_false_r. reflexivity. }
  assert (arr KImu g1) as A1.
  { constructor; try reflexivity; [same I0|exists []; reflexivity| |exists []; reflexivity]. eexists. split; [reflexivity|]. change (gf_static g1) with (gf_static g0). rewrite Hst. discriminate. }
  cbn [app trans gop_of]. rewrite E0. change (gf_out g1) with (@nil imu). cbn [map app]. rewrite (out_nil g1 eq_refl).
  cbn [gf_step]. change (gf_gyro g1) with (Some (@nil imu)). cbn [of_opt bind app]. change (gf_out (gf_set_gyro g1 [m])) with (@nil imu). cbn [map app]. rewrite (out_nil (gf_set_gyro g1 [m]) eq_refl).
  set (g2 := gf_set_gyro g1 [m]). assert (gyro_inv g2) as I2 by same I0.
  destruct (gyro_total g2 [m] I2 eq_refl) as (g3 & E3 & I3 & Eg3). destruct (prop_meta g2 g3 E3) as (M1 & M2 & M3 & M4 & M5).
  destruct (gyro_prop_inv g2 g3 E3) as (B1 & B2 & B3 & B4 & B5 & B6 & B7 & B8 & (tg & B9 & B10 & B11 & B12) & B13). cbn [tl] in Eg3.
  assert (gf_last g3 = i_t m) as Hl by (rewrite Eg3 in B9; cbn in B9; rewrite app_nil_r in B9; apply B12; auto).
  assert (ImuFilter_RunOnce g2 false = Ok g3) as E4.
  { unfold ImuFilter_RunOnce. change (gf_init g2) with true. change (gf_pm g2) with GYRO. cbn match. rewrite E3. cbn [bind]. rewrite B5. change (gf_cm g2) with SINGLE_IMU. cbn match.
    unfold SingleImuCorrection. rewrite B1. reflexivity. }
  rewrite E4. assert (gf_out g3 = []) as O3 by (rewrite B4; reflexivity). rewrite O3. cbn [map app]. rewrite (out_nil g3 O3).
  rewrite B1. change (gf_imu g2) with (Some (@nil imu)). cbn [of_opt bind app]. set (g4 := gf_set_imu g3 [x]). assert (gf_out g4 = []) as O4 by exact O3. rewrite O4. cbn [map app]. rewrite (out_nil g4 O4).
  assert (gf_thr g4 = dflt (q_thr c) (3 / 100)) as Ht4 by (change (gf_thr g4) with (gf_thr g3); rewrite B8; reflexivity).
  apply (stuck_run x).
  - constructor.
    + apply (arr_set KImu g1); auto; [same I3|..|intros _; exists [x]; reflexivity|]; try (cbn; rewrite ?B6, ?M1, ?M2, ?B7, ?B5, ?M3, ?M4; reflexivity).
      * exists []. exact Eg3.
      * intros [q Eq]. discriminate Eq.
    + cbn. rewrite B7. reflexivity.
    + exact O4.
    + exists []. reflexivity.
    + rewrite Ht4. change (gf_last g4) with (gf_last g3). rewrite Hl. exact Ht.
    + cbn. rewrite Eg3. intros y [].
  - exact Hv.
  - intros y Hin. rewrite Ht4. specialize (Hy y Hin). lra.
Qed.

(** *** each encoder reading gives one sample *)
Lemma thm_av_passes p vs g e a q : fprog_ok p -> fp_adds p = [AGyro; AAv] -> Forall (event_ok (fp_adds p)) vs -> sys_run (fp_start p) vs = Ok (g, e) ->
  gf_init g = true -> gf_latest g <> None -> gf_av g = Some (a :: q) ->
  forall g' e', sys_step (g, e) SFilter = Ok (g', e') -> gf_av g' = Some q /\ exists m, imu_queue e' = imu_queue e ++ [m] /\ i_t m = av_t a.
Proof.
  intros HP Ha HE HR Hi Hl Hq g' e' HS. destruct (start_arr p HP) as (k & Ek & A & B & _). assert (k = KAv) as -> by (destruct k; [reflexivity|rewrite Ha in Ek; discriminate]). rewrite Ek in HE.
  destruct (trans_run KAv vs _ (build (fp_est p)) A B HE) as (g1 & A1 & B1 & E). change (fst (fp_start p), build (fp_est p)) with (fp_start p) in E. rewrite HR in E.
  destruct (prog_run _ _) as [e1|]; [|discriminate]. cbn [bind] in E. injection E as -> ->. rename g1 into g0.
  pose proof A1 as []. destruct ar_gyro0 as (qg & Eg). destruct (gyro_total g0 qg ar_inv0 Eg) as (g1 & E1 & I1 & Eg1).
  destruct (prop_meta g0 g1 E1) as (M1 & M2 & M3 & M4 & M5). destruct (gyro_prop_inv g0 g1 E1) as (X1 & X2 & X3 & X4 & X5 & _).
  cbn [sys_step gf_step] in HS. unfold ImuFilter_RunOnce in HS. rewrite Hi, ar_pm0, E1 in HS. cbn [bind] in HS. rewrite X5, (ar_cm0 Hi) in HS. unfold AngVelCorrection in HS. rewrite X3, Hq in HS. cbn [of_opt bind maybe_clear] in HS.
  assert (exists x, gf_latest g1 = Some x) as (x & Ex).
  { rewrite (M5 (ar_cm0 Hi)). destruct (q_of (gf_gyro g0)); [|eauto]. destruct (gf_latest g0); [eauto|congruence]. }
  rewrite Ex in HS. destruct (correct_enc_ok g1 x a I1) as (y & P & E2 & _). rewrite E2 in HS. cbn [bind gf_push fst snd gf_set_out gf_set_est gf_av gf_out] in HS. rewrite X3, Hq in HS. cbn [of_opt bind pop] in HS.
  unfold hand_over in HS. cbn [gf_set_av gf_queues gf_set_out gf_set_est gf_out] in HS. cbn [gf_push fst snd gf_set_out gf_set_est gf_out gf_set_av gf_queues] in HS. rewrite X4, B1 in HS. cbn [app map foldM] in HS. cbn [est_step] in HS.
  destruct (e_prop e1) as [ip|] eqn:Eip; cbn [of_opt bind] in HS; [|discriminate]. injection HS as <- <-. split; [reflexivity|]. exists (mkImu (av_t a) (i_q x) (head3 y) (i_a x)). split; [|reflexivity].
  unfold imu_queue. rewrite Eip. reflexivity.
Qed.

(** *** husky_gyro_filter: IMU and encoder, no gyro propagation *)
Lemma thm_husky_gyro_unset : sys_run husky_gyro_start [SFilter] = Fail BadRead.
Proof. reflexivity. Qed.
Lemma thm_out_of_order z m a : exists g e, sys_run (gf_make (Some []) (Some []) (Some z) husky_gyro_cfg, build husky_gyro_filter) [SFilter; SImu m; SFilter; SAv a; SFilter] = Ok (g, e) /\
  map i_t (imu_queue e) = [i_t m; av_t a].
Proof.
  set (g0 := gf_make _ _ _ _). assert (gyro_inv g0) as I0 by (apply make_inv; split; cbn; intros [=]; lra).
  assert (exists ip, e_prop (build husky_gyro_filter) = Some ip /\ ip_queue ip = []) as (ip & Eip & Eq) by (rewrite build_eq; cbn [e_prop e_set_corrs e_set]; eexists; split; reflexivity).
  set (e0 := build husky_gyro_filter) in *. clearbody e0.
  rewrite sys_cons. cbn [sys_step gf_step]. set (g1 := gf_mode (gf_mode g0 (gf_pm g0) (pick_method g0) (gf_nimu g0) (gf_nav g0) (gf_init g0)) RANDOM_WALK SINGLE_IMU_PLUS_ANG_VEL 0 0 true).
  assert (ImuFilter_RunOnce g0 false = Ok g1) as ->.
  { unfold ImuFilter_RunOnce. change (gf_init g0) with false. cbn [maybe_clear bind]. unfold InitializeFilter. cbn [gf_mode gf_size]. change (gf_size g0) with (Some z). cbn [of_opt bind gf_mode gf_static].
    change (gf_static g0) with false. rewrite Bool.andb_false_r. reflexivity. }
  cbn [bind]. unfold hand_over at 1. change (gf_out g1) with (@nil imu). cbn [map foldM bind]. rewrite (out_nil g1 eq_refl).
  rewrite sys_cons. cbn [sys_step gf_step]. change (gf_imu g1) with (Some (@nil imu)). cbn [of_opt bind app]. set (g2 := gf_set_imu g1 [m]). assert (gyro_inv g2) as I2 by same I0.
  rewrite sys_cons. cbn [sys_step gf_step]. unfold ImuFilter_RunOnce at 1. change (gf_init g2) with true. change (gf_pm g2) with RANDOM_WALK. cbn match.
  destruct (walk_inv g2 I2) as (g3 & E3 & I3 & _). rewrite E3. destruct (walk_prop_inv g2 g3 E3) as (P3 & _ & ->). cbn [bind]. change (gf_cm (gf_set_est g2 (gf_x g2) P3)) with SINGLE_IMU_PLUS_ANG_VEL. cbn match.
  set (g3 := gf_set_est g2 (gf_x g2) P3) in *. unfold SingleImuAngVelCorrection at 1. change (gf_imu g3) with (Some [m]). change (gf_av g3) with (Some (@nil avmeas)). cbn [of_opt bind hd_error maybe_clear].
  set (g4 := gf_set_prev g3 (gf_last g3) (gf_prev g3) (Some m)). assert (gyro_inv g4) as I4 by same I3.
  assert (in_time g4 (i_t m) = true) as -> by (unfold in_time; change (gf_last g4) with (-1); destruct (Req_EM_T (-1) (-1)); [reflexivity|lra]).
  destruct (correct_imu_ok g4 m I4) as (x5 & P5 & E5 & I5 & _). rewrite E5. cbn [bind]. unfold gf_push; cbn [fst snd].
  set (o1 := mkImu (i_t m) (i_q m) (head3 x5) (i_a m)). set (g5 := gf_set_out (gf_set_est g4 x5 P5) (gf_out (gf_set_est g4 x5 P5) ++ [o1])). change (gf_imu g5) with (Some [m]). cbn [of_opt bind pop].
  unfold hand_over at 1. change (gf_out (gf_set_imu g5 [])) with [o1]. cbn [map foldM est_step]. rewrite Eip. cbn [of_opt bind]. rewrite Eq. cbn [app].
  set (g6 := gf_set_out (gf_set_imu g5 []) []). assert (gyro_inv g6) as I6 by same I5. set (e1 := e_set_prop e0 (set_queue ip [o1])).
  rewrite sys_cons. cbn [sys_step gf_step]. change (gf_av g6) with (Some (@nil avmeas)). cbn [of_opt bind app]. set (g7 := gf_set_av g6 [a]). assert (gyro_inv g7) as I7 by same I6.
  rewrite sys_cons. cbn [sys_step gf_step]. unfold ImuFilter_RunOnce at 1. change (gf_init g7) with true. change (gf_pm g7) with RANDOM_WALK. cbn match.
  destruct (walk_inv g7 I7) as (g8 & E8 & I8 & _). rewrite E8. destruct (walk_prop_inv g7 g8 E8) as (P8 & _ & ->). cbn [bind]. change (gf_cm (gf_set_est g7 (gf_x g7) P8)) with SINGLE_IMU_PLUS_ANG_VEL. cbn match.
  set (g8 := gf_set_est g7 (gf_x g7) P8) in *. unfold SingleImuAngVelCorrection. change (gf_imu g8) with (Some (@nil imu)). change (gf_av g8) with (Some [a]). cbn [of_opt bind hd_error maybe_clear].
  change (gf_latest g8) with (Some m).
  assert (in_time g8 (av_t a) = true) as -> by (unfold in_time; change (gf_last g8) with (-1); destruct (Req_EM_T (-1) (-1)); [reflexivity|lra]).
  destruct (correct_enc_ok g8 m a I8) as (x9 & P9 & E9 & I9 & _). rewrite E9. cbn [bind]. unfold gf_push; cbn [fst snd].
  set (o2 := mkImu (av_t a) (i_q m) (head3 x9) (i_a m)). set (g9 := gf_set_out (gf_set_est g8 x9 P9) (gf_out (gf_set_est g8 x9 P9) ++ [o2])). change (gf_av g9) with (Some [a]). cbn [of_opt bind pop].
  unfold hand_over. change (gf_out (gf_set_av g9 [])) with [o2]. cbn [map foldM est_step]. unfold e1. cbn [e_set_prop e_prop e_set of_opt bind set_queue ip_queue]. cbn [sys_run foldM].
  do 2 eexists. split; [reflexivity|]. reflexivity.
Qed.

(** ** programs whose velocity correction gets readings do not fail *)
Definition gyro_enc (v : vmeas) (x : imu * avmeas) : list sysev := [SGyro (fst x); SAv (snd x); SFilter; SProg (EIter [mkArr [[v]] []])].
Definition gyro_enc_run (v : vmeas) (xs : list (imu * avmeas)) : list sysev := SFilter :: flat_map (gyro_enc v) xs.
Lemma sys_fed p g v vs : fprog_ok p -> inputs_ok (fp_adds p) vs -> f_corrs (fp_est p) = [GVel g] -> (forall l, In (SProg (EIter l)) vs -> l = [mkArr [[v]] []]) ->
  exists s, sys_run (fp_start p) vs = Ok s.
Proof.
  intros HP HI Hg HF. pose proof (thm_sys_safe p vs HP HI) as H. destruct (sys_run (fp_start p) vs) as [s|er]; [eauto|].
  destruct H as (_ & pre & l & post & g1 & e1 & E & R & _ & _ & NF). exfalso. apply NF. rewrite (HF l) by (rewrite E; apply in_or_app; right; left; reflexivity).
  pose proof HI as [HE _]. rewrite E in HE. apply Forall_app in HE. destruct HE as [HE _].
  destruct (sys_split p pre HP HE) as (g' & _ & X). rewrite R in X. destruct (prog_run _ _) as [e2|] eqn:R2; [|discriminate]. cbn [bind] in X. injection X as -> ->.
  assert (imu_stream (samples (trans (fst (fp_start p)) pre))) as HSp.
  { apply thm_stream; auto. destruct HI as (_ & [I1 I2] & I3 & I4). rewrite E in *. unfold s_imus, s_avs, s_gyros in *. rewrite !flat_map_app in *.
    assert (forall a b, sorted (a ++ b) -> sorted a) as HS.
    { clear. intros a b B. destruct a as [|x a]; [exact I|]. cbn [app sorted] in *. revert x B. induction a as [|y a IH]; intros x B; cbn [app nondec] in *; [exact I|]. destruct B as [B1 B2]. split; [exact B1|]. apply IH. exact B2. }
    split; [exact HE|]. split; [split|]. - apply Forall_app in I1. apply I1. - rewrite map_app in I2. eapply HS; exact I2.
    - split. + rewrite map_app in I3. eapply HS; exact I3. + intros Hin. specialize (I4 Hin). apply Forall_app in I4. apply I4. }
  pose proof HP as (HC & _ & _). pose proof (prog_safe _ _ (build_ok (fp_est p) _ HC HSp)) as H. rewrite R2 in H. destruct H as (_ & os & _ & _ & RR & _).
  destruct (EstHist.run_fixed _ _ _ RR) as (_ & F & _). rewrite build_eq, Hg in F. cbn [e_corrs e_set_corrs e_set map mk_corr] in F.
  destruct (e_corrs e2) as [|c [|c' cs]]; cbn in F; try discriminate. destruct c as [c|c]; cbn in F; [|discriminate].
  cbn. split; [|exact I]. destruct (vc_queue c); discriminate.
Qed.
Lemma gyro_enc_inputs v xs : Forall unitq (map fst xs) -> sorted (map av_t (map snd xs)) -> inputs_ok [AGyro; AAv] (gyro_enc_run v xs) /\ s_avs (gyro_enc_run v xs) = map snd xs.
Proof.
  intros HU HS. assert (s_avs (gyro_enc_run v xs) = map snd xs) as E1 by (unfold gyro_enc_run, s_avs; cbn; clear; induction xs as [|x xs IH]; [reflexivity|]; cbn; rewrite IH; reflexivity).
  assert (s_gyros (gyro_enc_run v xs) = map fst xs) as E2 by (unfold gyro_enc_run, s_gyros; cbn; clear; induction xs as [|x xs IH]; [reflexivity|]; cbn; rewrite IH; reflexivity).
  assert (s_imus (gyro_enc_run v xs) = []) as E3 by (unfold gyro_enc_run, s_imus; cbn; clear; induction xs as [|x xs IH]; [reflexivity|]; exact IH).
  split; [|exact E1]. unfold inputs_ok. rewrite E1, E2, E3. split; [|split; [split; [constructor|exact I]|split; [exact HS|intros _; exact HU]]].
  unfold gyro_enc_run. constructor; [exact I|]. clear. induction xs as [|x xs IH]; cbn; [constructor|]. repeat (constructor; [cbn; tauto|]). exact IH.
Qed.
Lemma thm_fetch_runs v xs : Forall unitq (map fst xs) -> sorted (map av_t (map snd xs)) -> exists s, sys_run (fp_start fetch_gyro_program) (gyro_enc_run v xs) = Ok s.
Proof.
  intros HU HS. destruct (gyro_enc_inputs v xs HU HS) as [HI _]. eapply (sys_fed _ _ v); [exact (proj1 (Forall_forall _ _) thm_filter_programs_ok _ (or_introl eq_refl))|exact HI|reflexivity|].
  intros l. unfold gyro_enc_run. intros [X|X]; [discriminate|]. clear -X. induction xs as [|x xs IH]; cbn in X; [contradiction|].
  destruct X as [X|[X|[X|[X|X]]]]; try discriminate; auto. injection X as <-. reflexivity.
Qed.
Lemma ex_fetch m a : qnorm2 (i_q m) = 1 -> inputs_ok (fp_adds fetch_gyro_program) [SFilter; SGyro m; SFilter; SAv a] /\
  exists g e, sys_run (fp_start fetch_gyro_program) [SFilter; SGyro m; SFilter; SAv a] = Ok (g, e) /\ gf_init g = true /\ gf_latest g <> None /\ gf_av g = Some [a].
Proof.
  intros Hm. split.
  { split; [repeat constructor; cbn; tauto|]. split; [split; [constructor|exact I]|]. split; [cbn; tauto|]. intros _. repeat constructor. exact Hm. }
  unfold fp_start. set (e0 := build _). clearbody e0. set (g0 := gf_setup _ _).
  pose proof (proj1 (Forall_forall _ _) thm_filter_programs_ok _ (or_introl eq_refl)) as (_ & HG & _).
  assert (gyro_inv g0) as I0 by (apply setup_inv, make_inv; exact HG). clear HG.
  rewrite sys_cons. cbn [sys_step gf_step].
  set (g1 := gf_mode (gf_mode g0 GYRO ANG_VEL 0 1 false) GYRO ANG_VEL 0 1 true).
  assert (ImuFilter_RunOnce g0 false = Ok g1) as -> by reflexivity.
  cbn [bind]. unfold hand_over at 1. change (gf_out g1) with (@nil imu). cbn [map foldM bind]. rewrite (out_nil g1 eq_refl).
  rewrite sys_cons. cbn [sys_step gf_step]. change (gf_gyro g1) with (Some (@nil imu)). cbn [of_opt bind app]. set (g2 := gf_set_gyro g1 [m]). assert (gyro_inv g2) as I2 by same I0.
  rewrite sys_cons. cbn [sys_step gf_step]. unfold ImuFilter_RunOnce at 1. change (gf_init g2) with true. change (gf_pm g2) with GYRO. cbn match.
  destruct (gyro_total g2 [m] I2 eq_refl) as (g3 & E3 & I3 & Eg3). rewrite E3. cbn [bind]. destruct (prop_meta g2 g3 E3) as (M1 & M2 & M3 & M4 & M5).
  destruct (gyro_prop_inv g2 g3 E3) as (B1 & B2 & B3 & B4 & B5 & B6 & B7 & B8 & _ & _). rewrite B5. change (gf_cm g2) with ANG_VEL. cbn match. unfold AngVelCorrection. rewrite B3. change (gf_av g2) with (Some (@nil avmeas)).
  cbn [of_opt bind maybe_clear]. unfold hand_over. rewrite B4. change (gf_out g2) with (@nil imu). cbn [map foldM bind]. assert (gf_out g3 = []) as O3 by (rewrite B4; reflexivity). rewrite (out_nil g3 O3).
  rewrite sys_cons. cbn [sys_step gf_step]. rewrite B3. change (gf_av g2) with (Some (@nil avmeas)). cbn [of_opt bind app sys_run foldM]. do 2 eexists. split; [reflexivity|].
  split; [exact B7|]. split; [|reflexivity]. change (gf_latest (gf_set_av g3 [a])) with (gf_latest g3). rewrite (M5 eq_refl). discriminate.
Qed.
