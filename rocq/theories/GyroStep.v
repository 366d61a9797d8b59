(** Lemmas for C84. *)
From Coq Require Import Reals ZArith List Bool Arith Lia Lra.
From Verif Require Import Res Vec3 Mat MatInv Psd Spec LieGroup RobotState Imu Propagation ImuFilter SpecGyro SpecGyroStep GyroThms GyroHist GyroEx GyroMore GyroLive.
Import ListNotations.
Local Open Scope R_scope.

(** ** what corrections leave alone *)
Definition score (g : gfilt) := (gf_gyro g, gf_prev g, gf_last g, gf_pm g, gf_cm g, (gf_nimu g, gf_nav g, gf_init g)).
Definition sc (g : gfilt) (r : res gfilt) : Prop := match r with Ok g' => score g' = score g | Fail _ => True end.
Lemma sc_bind g r f : sc g r -> (forall g', score g' = score g -> sc g' (f g')) -> sc g (bind r f).
Proof. destruct r as [g1|er]; cbn; [|auto]. intros C H. specialize (H g1 C). destruct (f g1); cbn in *; congruence. Qed.
Lemma sc_trans g g1 r : score g1 = score g -> sc g1 r -> sc g r. Proof. destruct r; cbn; congruence. Qed.
Lemma sc_opt {A} g (o : option A) er f : (forall x, o = Some x -> sc g (f x)) -> sc g (let* x := of_opt o er in f x).
Proof. destruct o; cbn; auto. Qed.
Lemma sc_pop {A} g (q : list A) f : (forall q', sc g (f q')) -> sc g (let* q' := pop q in f q').
Proof. destruct q; cbn; auto. Qed.
Lemma sc_clear g : sc g (ImuFilter_clear g).
Proof. unfold ImuFilter_clear. apply sc_opt. intros _ _. apply sc_opt. intros _ _. reflexivity. Qed.
Lemma sc_maybe b g : sc g (maybe_clear b g). Proof. destruct b; [apply sc_clear|reflexivity]. Qed.
Lemma sc_cimu g m : sc g (let* p := AngVelFilterCorrectIMU g m in Ok (gf_push p)).
Proof. destruct (AngVelFilterCorrectIMU g m) as [[g1 o]|] eqn:E; [|exact I]. apply corr_imu_inv in E. destruct E as (x & P & -> & _). reflexivity. Qed.
Lemma sc_cenc g m a : sc g (let* p := AngVelFilterCorrectEncoder g m a in Ok (gf_push p)).
Proof. destruct (AngVelFilterCorrectEncoder g m a) as [[g1 o]|] eqn:E; [|exact I]. apply corr_enc_inv in E. destruct E as (x & P & -> & _). reflexivity. Qed.
Lemma sc_single g clr : sc g (SingleImuCorrection g clr).
Proof.
  unfold SingleImuCorrection. apply sc_opt. intros q Eq. destruct q as [|m q]; [apply sc_maybe|].
  destruct (Rle_dec _ _); [|apply sc_maybe]. destruct (Rle_dec _ _); [|apply sc_maybe].
  apply (sc_trans _ (gf_set_imu g q)); [reflexivity|]. apply sc_bind; [apply sc_maybe|]. intros. apply sc_cimu.
Qed.
Lemma sc_multi : forall todo g fused done, sc g (multi_loop g fused done todo).
Proof.
  induction todo as [|q qs IH]; intros g fused done; cbn [multi_loop]; [reflexivity|]. destruct q as [|m q]; [apply IH|].
  destruct (in_time g (i_t m)).
  - destruct (AngVelFilterCorrectIMU g m) as [[g1 o]|] eqn:E; [|exact I]. apply corr_imu_inv in E. destruct E as (x & P & -> & _). cbn [bind]. eapply sc_trans; [|apply IH]. reflexivity.
  - cbn [bind]. destruct fused as [f|]; [|apply IH]. eapply sc_trans; [|apply IH]. reflexivity.
Qed.
Lemma sc_both g clr : sc g (SingleImuAngVelCorrection g clr).
Proof.
  unfold SingleImuAngVelCorrection. apply sc_opt. intros qi Ei. apply sc_opt. intros qa Ea.
  destruct (match hd_error qi with Some _ => _ | None => _ end) as [im av]. apply sc_bind; [apply sc_maybe|]. intros g1 C1.
  destruct im as [m|]; [|destruct av as [a|]].
  - set (g2 := gf_set_prev g1 _ _ _). apply (sc_trans g1 g2); [reflexivity|].
    apply sc_bind; [destruct (in_time g2 (i_t m)); [apply sc_cimu|reflexivity]|].
    intros g3 C3. apply sc_opt. intros q Eq. apply sc_pop. intros q'. reflexivity.
  - apply sc_bind; [destruct (gf_latest g1); [destruct (in_time g1 (av_t a)); [apply sc_cenc|]|]; reflexivity|].
    intros g3 C3. apply sc_opt. intros q Eq. apply sc_pop. intros q'. reflexivity.
  - reflexivity.
Qed.
Lemma sc_av g clr : sc g (AngVelCorrection g clr).
Proof.
  unfold AngVelCorrection. apply sc_opt. intros q Eq. destruct q as [|a q]; [apply sc_maybe|].
  apply sc_bind; [apply sc_maybe|]. intros g1 C1.
  apply sc_bind; [destruct (gf_latest g1); [apply sc_cenc|reflexivity]|].
  intros g3 C3. apply sc_opt. intros q' Eq'. apply sc_pop. intros q2. reflexivity.
Qed.
Definition corr_part (g : gfilt) (clr : bool) : res gfilt :=
  match gf_cm g with
  | SINGLE_IMU_PLUS_ANG_VEL => SingleImuAngVelCorrection g clr
  | SINGLE_IMU => SingleImuCorrection g clr
  | MULTI_IMU => let* g := maybe_clear clr g in MultiImuCorrection g
  | ANG_VEL => AngVelCorrection g clr
  | OTHER_METHOD => maybe_clear clr g
  end.
Lemma sc_corr g clr : sc g (corr_part g clr).
Proof.
  unfold corr_part. destruct (gf_cm g); [apply sc_both|apply sc_single| |apply sc_av|apply sc_maybe].
  apply sc_bind; [apply sc_maybe|]. intros. apply sc_multi.
Qed.
Lemma run_init g clr : gf_init g = true ->
  ImuFilter_RunOnce g clr = (let* g := match gf_pm g with GYRO => GyroPropagate g | RANDOM_WALK => RandomWalkPropagate g end in corr_part g clr).
Proof. intros H. unfold ImuFilter_RunOnce. rewrite H. reflexivity. Qed.

(** ** the invariant *)
Definition c0 (c : gf_cfg) (l : list gadd) : gfilt := gf_setup (ImuAngVelEKF_config c) l.
Record SI (c : gf_cfg) (l : list gadd) (os : list gop) (g : gfilt) : Prop := {
  si_const : gf_const g = gf_const (ImuAngVelEKF_config c);
  si_pm : gf_pm g = if has_gyro l then GYRO else RANDOM_WALK;
  si_null : has_gyro l = false -> gf_gyro g = None /\ g_gyros os = [];
  si_meth : pick_method g = the_method c l; si_cm : gf_init g = true -> gf_cm g = the_method c l;
  si_past : exists a d b, gyro_past c os (q_of (gf_gyro g)) a d b /\ gf_prev g = last_rate a b /\ gf_last g = last_time b /\ (gf_init g = false -> b = [] /\ d = []);
  si_est : gf_init g = false -> gf_P g = g_start_cov c /\ (dflt (q_static c) false = false -> gf_x g = vec6 vzero (dflt (q_bias c) vzero)) }.

Lemma cov_eq a b : diag_cov (dflt a (1 / 100)) (dflt b (1 / 100)) = rate_bias_cov (g_var a (1 / 100)) (g_var b (1 / 100)).
Proof.
  apply mat_ext; [reflexivity|reflexivity|]. intros i j Hi Hj. change (i < 6)%nat in Hi. change (j < 6)%nat in Hj. unfold diag_cov, rate_bias_cov. rewrite !ent_mk by lia.
  destruct (Nat.eqb i j), (Nat.ltb i 3); auto; [destruct a|destruct b]; cbn; ring.
Qed.
Lemma setup_counts : forall l g, 
  gf_nimu (gf_setup g l) = (imus_added l + gf_nimu g)%nat /\ gf_nav (gf_setup g l) = (encs_added l + gf_nav g)%nat /\ gf_cm (gf_setup g l) = gf_cm g /\
  gf_pm (gf_setup g l) = (if has_gyro l then GYRO else gf_pm g) /\ (has_gyro l = false -> gf_gyro (gf_setup g l) = gf_gyro g) /\
  (q_of (gf_gyro g) = [] -> q_of (gf_gyro (gf_setup g l)) = []) /\ gf_const (gf_setup g l) = gf_const g /\
  gf_prev (gf_setup g l) = gf_prev g /\ gf_last (gf_setup g l) = gf_last g /\ gf_init (gf_setup g l) = gf_init g /\ gf_P (gf_setup g l) = gf_P g /\ gf_x (gf_setup g l) = gf_x g.
Proof.
  induction l as [|a l IH]; intros g; [repeat split; auto|]. change (gf_setup g (a :: l)) with (gf_setup (gf_add g a) l). destruct (IH (gf_add g a)) as (A1 & A2 & A3 & A4 & A5 & A6 & A7 & A8 & A9 & A10 & A11 & A12).
  rewrite A1, A2, A3, A4, A7, A8, A9, A10, A11, A12. destruct a; cbn [gf_add has_gyro imus_added encs_added existsb filter length orb] in *;
    fold (has_gyro l) (imus_added l) (encs_added l) in *.
  - repeat split; auto; cbn; try (destruct (has_gyro l); reflexivity). discriminate.
  - unfold add_imu_correction in *. destruct (Nat.eqb (S (gf_nimu g)) 1); repeat split; auto; try (cbn; unfold imus_added; lia).
  - repeat split; auto; cbn; unfold encs_added; try lia.
Qed.
Lemma setup_SI c l : SI c l [] (c0 c l).
Proof.
  unfold c0. destruct (setup_counts l (ImuAngVelEKF_config c)) as (A1 & A2 & A3 & A4 & A5 & A6 & A7 & A8 & A9 & A10 & A11 & A12).
  constructor.
  - exact A7.
  - rewrite A4. reflexivity.
  - intros H. rewrite (A5 H). split; reflexivity.
  - unfold pick_method, the_method. rewrite A1, A2, A3. cbn [ImuAngVelEKF_config gf_make gf_nimu gf_nav gf_cm]. rewrite !Nat.add_0_r.
    assert (method_of (dflt (q_method c) 0%Z) = match q_method c with Some z => method_of z | None => SINGLE_IMU_PLUS_ANG_VEL end) as -> by (destruct (q_method c); reflexivity). reflexivity.
  - rewrite A10. discriminate.
  - exists [], [], []. rewrite A8, A9. split; [split; [rewrite (A6 eq_refl); reflexivity|auto]|]. split; [reflexivity|]. split; [reflexivity|auto].
  - intros _. rewrite A11, A12. split; [apply cov_eq|]. intros Hs. cbn [ImuAngVelEKF_config gf_make gf_x]. rewrite Hs. reflexivity.
Qed.
Lemma pick_eq g g' : gf_cm g' = gf_cm g -> gf_nimu g' = gf_nimu g -> gf_nav g' = gf_nav g -> pick_method g' = pick_method g.
Proof. intros A B C. unfold pick_method. rewrite A, B, C. reflexivity. Qed.
(** steps that touch no gyro sample *)
Lemma SI_same c l os o g g' : SI c l os g -> score g' = score g -> gf_const g' = gf_const g -> (gf_init g = false -> gf_x g' = gf_x g /\ gf_P g' = gf_P g) ->
  g_gyros [o] = [] -> SI c l (os ++ [o]) g'.
Proof.
  intros [B1 B2 B3 B4 B5 (a & d & b & (B6 & B6') & B7 & B8 & B9) B10] S C X G.
  assert (g_gyros (os ++ [o]) = g_gyros os) as GE by (unfold g_gyros in *; rewrite flat_map_app, G, app_nil_r; reflexivity).
  unfold score in S. injection S as S1 S2 S3 S4 S5 S6 S7 S8.
  constructor; [congruence|congruence|intros H; rewrite S1, GE; auto|rewrite (pick_eq g); auto|rewrite S8, S5; auto| |].
  - exists a, d, b. unfold gyro_past. rewrite GE, S1, S2, S3, S8. auto.
  - rewrite S8. intros H. destruct (X H) as [-> ->]. auto.
Qed.
Lemma gyros_snoc os o : g_gyros (os ++ [o]) = g_gyros os ++ g_gyros [o]. Proof. unfold g_gyros. apply flat_map_app. Qed.
Lemma last_snoc {A} (l : list A) x d : last (l ++ [x]) d = x. Proof. apply last_app. Qed.
Lemma last_rate_snoc a b m : last_rate a (b ++ [m]) = i_w m. Proof. unfold last_rate. rewrite app_assoc, map_app. apply last_snoc. Qed.
Lemma last_time_snoc b m : last_time (b ++ [m]) = i_t m. Proof. unfold last_time. rewrite map_app. apply last_snoc. Qed.

(** prediction, with the invariant *)
Definition predict (g : gfilt) : res gfilt := match gf_pm g with GYRO => GyroPropagate g | RANDOM_WALK => RandomWalkPropagate g end.
Lemma noise_eq c l os g : SI c l os g -> gf_Q g = g_noise c.
Proof. intros [B1 _ _ _ _ _ _]. unfold gf_const in B1. injection B1 as B1 _ _ _ _ _ _ _ _. rewrite B1. apply cov_eq. Qed.
Lemma predict_spec c l os g g1 : SI c l os g -> gyro_inv g -> gf_init g = true -> predict g = Ok g1 ->
  exists a d b a1 b1, gyro_past c os (q_of (gf_gyro g)) a d b /\ gyro_past c os (q_of (gf_gyro g1)) a1 d b1 /\
    gf_prev g1 = last_rate a1 b1 /\ gf_last g1 = last_time b1 /\
    g_predicted c l a b (q_of (gf_gyro g)) (q_of (gf_gyro g1)) (gf_x g) (gf_P g) (gf_latest g) (gf_x g1) (gf_P g1) (gf_last g1) (gf_latest g1) /\
    gf_imu g1 = gf_imu g /\ gf_av g1 = gf_av g /\ gf_imus g1 = gf_imus g /\ gf_out g1 = gf_out g /\ gf_cm g1 = gf_cm g /\ gf_pm g1 = gf_pm g /\ gf_init g1 = gf_init g /\
    gf_nimu g1 = gf_nimu g /\ gf_nav g1 = gf_nav g /\ (has_gyro l = false -> gf_gyro g1 = None).
Proof.
  intros HS GI Hi E. pose proof (noise_eq _ _ _ _ HS) as HQ. destruct HS as [B1 B2 B3 B4 B5 (a & d & b & (B6 & B6') & B7 & B8 & _) _]. specialize (B5 Hi). unfold predict in E. rewrite B2 in E. unfold g_predicted. pose proof GI as []. pose proof (psd_sq _ gi_P). pose proof (psd_sq _ gi_Q).
  destruct (has_gyro l).
  - unfold GyroPropagate in E. destruct (gf_gyro g) as [[|m q]|] eqn:Eg; cbn [of_opt bind] in E; [| |discriminate].
    + injection E as <-. rewrite Eg. exists a, d, b, a, b. cbn [q_of]. do 3 (split; [first [split; assumption|assumption]|]). split; [exact B8|]. split; [auto|]. repeat (split; [reflexivity|]). discriminate.
    + cbn [gf_set_gyro gf_queues gf_prev gf_x gf_P gf_Q gf_set_prev gf_cm gf_latest] in E.
      rewrite cadd_ok in E by (cbn [vec6 nr nc mk]; auto). cbn [bind] in E. rewrite cadd_ok in E by congruence. cbn [bind] in E. injection E as <-.
      cbn [gf_set_est gf_set_prev gf_gyro gf_x gf_P gf_prev gf_last gf_latest gf_imu gf_av gf_imus gf_out gf_cm gf_pm gf_init gf_nimu gf_nav q_of].
      cbn [q_of] in B6. exists a, d, b, a, (b ++ [m]). split; [split; [exact B6|exact B6']|]. split; [split; [rewrite B6, <- !app_assoc; reflexivity|exact B6']|].
      split; [rewrite last_rate_snoc; reflexivity|]. split; [rewrite last_time_snoc; reflexivity|]. split.
      { split; [reflexivity|]. split; [rewrite B7; apply mplus_comm; cbn [vec6 nr nc mk]; auto|]. split; [rewrite HQ; reflexivity|]. split; [reflexivity|]. rewrite <- B5. reflexivity. }
      repeat (split; [reflexivity|]). discriminate.
  - unfold RandomWalkPropagate in E. rewrite cadd_ok in E by congruence. cbn [bind] in E. injection E as <-. destruct (B3 eq_refl) as [B31 B32]. rewrite B31 in *. cbn [q_of] in *.
    cbn [gf_set_est gf_set_prev gf_gyro gf_x gf_P gf_prev gf_last gf_latest gf_imu gf_av gf_imus gf_out gf_cm gf_pm gf_init gf_nimu gf_nav].
    rewrite B31. exists a, d, b, a, b. cbn [q_of]. do 3 (split; [first [split; assumption|assumption]|]). split; [exact B8|]. split.
    { split; [reflexivity|]. split; [reflexivity|]. split; [reflexivity|]. split; [rewrite HQ; reflexivity|]. split; [|reflexivity]. rewrite B8. rewrite B32 in B6. destruct a, d, b; try discriminate. reflexivity. }
    repeat (split; [reflexivity|]). auto.
Qed.
Lemma SI_predict c l os o g g1 : SI c l os g -> gyro_inv g -> gf_init g = true -> predict g = Ok g1 -> gf_const g1 = gf_const g -> g_gyros [o] = [] -> SI c l (os ++ [o]) g1.
Proof.
  intros HS GI Hi E C G. destruct (predict_spec _ _ _ _ _ HS GI Hi E) as (a & d & b & a1 & b1 & _ & P1 & P2 & P3 & _ & Q1 & Q2 & Q3 & Q4 & Q5 & Q6 & Q7 & Q8 & Q9 & Q10).
  destruct HS as [B1 B2 B3 B4 B5 _ _]. assert (g_gyros (os ++ [o]) = g_gyros os) as GE by (rewrite gyros_snoc, G, app_nil_r; reflexivity).
  constructor; [congruence|congruence|intros H; rewrite GE; split; [auto|apply B3; exact H]|rewrite (pick_eq g); auto|rewrite Q5; auto| |congruence].
  exists a1, d, b1. unfold gyro_past. rewrite GE. split; [exact P1|]. split; [exact P2|]. split; [exact P3|]. congruence.
Qed.
(** calibration and the end of it *)
Lemma SI_initialize c l os o g g' : SI c l os g -> gf_init g = false -> InitializeFilter (gf_mode g (gf_pm g) (pick_method g) (gf_nimu g) (gf_nav g) (gf_init g)) = Ok g' -> g_gyros [o] = [] -> SI c l (os ++ [o]) g'.
Proof.
  intros HS Hi E G. destruct HS as [B1 B2 B3 B4 B5 (a & d & b & (B6 & B6') & B7 & B8 & B9) B10]. destruct (B9 Hi) as [-> ->]. destruct (B10 Hi) as [X1 X2].
  assert (g_gyros (os ++ [o]) = g_gyros os) as GE by (rewrite gyros_snoc, G, app_nil_r; reflexivity).
  assert (gf_static g = dflt (q_static c) false) as HSt. { unfold gf_const in B1. injection B1 as _ _ _ _ _ _ _ B1 _. rewrite B1. reflexivity. }
  rewrite B4 in E. set (g1 := gf_mode g (gf_pm g) (the_method c l) (gf_nimu g) (gf_nav g) (gf_init g)) in *.
  assert (pick_method g1 = the_method c l) as PM. { rewrite <- B4. unfold pick_method in *. change (gf_nimu g1) with (gf_nimu g). change (gf_nav g1) with (gf_nav g). change (gf_cm g1) with (the_method c l).
    destruct (gf_nimu g) as [|[|n]], (gf_nav g) as [|[|k]]; auto. }
  unfold InitializeFilter in E. destruct (gf_size g1) as [size|]; cbn [of_opt bind] in E; [|discriminate].
  change (gf_static g1) with (gf_static g) in E.
  destruct (vec_short (length (gf_vec g1)) size && gf_static g)%bool eqn:EV.
  - apply andb_prop in EV. destruct EV as [_ EV]. change (gf_imu g1) with (gf_imu g) in E. destruct (gf_imu g) as [[|m q]|] eqn:Ei; cbn [of_opt bind] in E; [| |discriminate].
    + injection E as <-. constructor; [exact B1|exact B2|rewrite GE; exact B3|exact PM|cbn; congruence| |auto].
      exists a, [], []. unfold gyro_past. rewrite GE. repeat (split; [auto|]). auto.
    + cbn [gf_set_vec gf_set_imu gf_queues gf_pm g1 gf_mode gf_gyro] in E. rewrite B2 in E. destruct (has_gyro l) eqn:HG.
      * destruct (gf_gyro g) as [[|m0 qg]|] eqn:Eg; cbn [of_opt bind] in E; [| |discriminate]; injection E as <-.
        -- constructor; [exact B1|rewrite HG; first [exact B2|reflexivity]|rewrite HG; discriminate|exact PM|cbn; congruence| |auto].
           exists a, [], []. unfold gyro_past. rewrite GE. unfold g1. cbn [gf_gyro gf_set_vec gf_set_imu gf_queues gf_mode q_of gf_prev gf_last]. rewrite ?Eg. split; [split; [exact B6|exact B6']|]. split; [exact B7|]. split; [exact B8|auto].
        -- constructor; [exact B1|rewrite HG; first [exact B2|reflexivity]|rewrite HG; discriminate|exact PM|cbn; congruence| |auto].
           exists (a ++ [m0]), [], []. unfold gyro_past. rewrite GE. unfold g1. cbn [gf_gyro gf_set_vec gf_set_imu gf_set_gyro gf_set_prev gf_queues gf_mode q_of gf_prev gf_last app] in *.
           split; [split; [rewrite B6, <- app_assoc; reflexivity|congruence]|]. split; [symmetry; unfold last_rate; rewrite app_nil_r, map_app; apply last_snoc|]. split; [exact B8|auto].
      * injection E as <-. constructor; [exact B1|rewrite HG; first [exact B2|reflexivity]|rewrite HG, GE; exact B3|exact PM|cbn; congruence| |auto].
        exists a, [], []. unfold gyro_past. rewrite GE. repeat (split; [auto|]). auto.
  - destruct (gf_static g) eqn:ES.
    + destruct (average (gf_vec g1)) as [avg|]; cbn [bind] in E; [|discriminate]. set (g2 := gf_set_est g1 _ _) in E.
      destruct (match gf_pm g2 with GYRO => _ | RANDOM_WALK => _ end) as [g3|] eqn:E3; cbn [bind] in E; [|discriminate].
      destruct (match gf_cm g3 with SINGLE_IMU_PLUS_ANG_VEL => _ | _ => _ end) as [g4|] eqn:E4; cbn [bind] in E; [|discriminate].
      destruct (match gf_cm g4 with SINGLE_IMU_PLUS_ANG_VEL => _ | _ => _ end) as [g5|] eqn:E5; cbn [bind] in E; [|discriminate]. injection E as <-.
      assert (score g4 = score g3 /\ gf_const g4 = gf_const g3) as [S4 C4]. { destruct (gf_cm g3); try (destruct (gf_imu g3); cbn [of_opt bind] in E4; [|discriminate]); injection E4 as <-; split; reflexivity. }
      assert (score g5 = score g4 /\ gf_const g5 = gf_const g4) as [S5 C5]. { destruct (gf_cm g4); try (destruct (gf_av g4); cbn [of_opt bind] in E5; [|discriminate]); injection E5 as <-; split; reflexivity. }
      assert (score g5 = score g3 /\ gf_const g5 = gf_const g3) as [S C] by (split; congruence). clear E4 E5 S4 C4 S5 C5 g4. unfold score in S. injection S as S1 S2 S3 S4 S5 S6 S7 S8.
      change (gf_pm g2) with (gf_pm g) in E3. change (gf_gyro g2) with (gf_gyro g) in E3. rewrite B2 in E3.
      assert (exists d', g_gyros os = a ++ d' ++ q_of (gf_gyro g3) /\ gf_prev g3 = gf_prev g /\ gf_last g3 = gf_last g /\ gf_const g3 = gf_const g /\ gf_pm g3 = gf_pm g /\ gf_cm g3 = the_method c l /\ gf_nimu g3 = gf_nimu g /\ gf_nav g3 = gf_nav g /\
        (has_gyro l = false -> gf_gyro g3 = None)) as (d' & D1 & D2 & D3 & D4 & D5 & D6 & D7 & D8 & D9).
      { destruct (has_gyro l).
        - destruct (gf_gyro g) as [qg|]; cbn [of_opt bind] in E3; [|discriminate]. injection E3 as <-. exists qg. cbn [app q_of] in B6. cbn [gf_set_gyro gf_queues gf_gyro q_of]. rewrite app_nil_r. split; [exact B6|].
          cbn. repeat (split; [reflexivity|]). discriminate.
        - injection E3 as <-. exists []. split; [exact B6|]. cbn. repeat (split; [reflexivity|]). intros H. apply B3; exact H. }
      constructor.
      * exact (eq_trans C (eq_trans D4 B1)).
      * cbn [gf_mode gf_pm]. congruence.
      * intros H. rewrite GE. cbn [gf_mode gf_gyro]. rewrite S1. split; [auto|apply B3; exact H].
      * rewrite <- PM. unfold g1. apply pick_eq; cbn [gf_mode gf_cm gf_nimu gf_nav]; congruence.
      * intros _. cbn [gf_mode gf_cm]. congruence.
      * exists a, d', []. unfold gyro_past. rewrite GE. cbn [gf_mode gf_gyro gf_prev gf_last gf_init]. rewrite S1, S2, S3, D2, D3. split; [split; [exact D1|congruence]|]. split; [exact B7|]. split; [exact B8|discriminate].
      * discriminate.
    + injection E as <-. constructor; [exact B1|exact B2|rewrite GE; exact B3| |reflexivity| |discriminate].
      * transitivity (pick_method g1); [apply pick_eq; reflexivity|exact PM].
      * exists a, [], []. unfold gyro_past. rewrite GE. cbn [gf_mode gf_gyro gf_prev gf_last gf_init g1]. split; [split; [exact B6|auto]|]. split; [exact B7|]. split; [exact B8|discriminate].
Qed.
Lemma maybe_score g b g1 : maybe_clear b g = Ok g1 -> score g1 = score g /\ gf_const g1 = gf_const g /\ gf_x g1 = gf_x g /\ gf_P g1 = gf_P g.
Proof.
  destruct b; cbn; [|injection 1 as <-; auto]. unfold ImuFilter_clear. destruct (gf_imu g); cbn [of_opt bind]; [|discriminate]. destruct (gf_av g); cbn [of_opt bind]; [|discriminate]. injection 1 as <-. auto.
Qed.
Lemma SI_run c l os o clr g g' : SI c l os g -> gyro_inv g -> ImuFilter_RunOnce g clr = Ok g' -> g_gyros [o] = [] -> SI c l (os ++ [o]) g'.
Proof.
  intros HS GI E G. destruct (gf_init g) eqn:Hi.
  - rewrite run_init in E by exact Hi. fold (predict g) in E. destruct (predict g) as [g1|] eqn:E1; cbn [bind] in E; [|discriminate].
    assert (gyro_inv g1 /\ gf_const g1 = gf_const g) as [GI1 C1]. { unfold predict in E1. destruct (gf_pm g); [apply propagate_inv; auto|]. destruct (walk_inv g GI) as (x & X & Y & Z). rewrite X in E1. injection E1 as <-. auto. }
    pose proof (SI_predict _ _ _ o _ _ HS GI Hi E1 C1 G) as HS1. pose proof (sc_corr g1 clr) as S. rewrite E in S. cbn in S.
    assert (gf_const g' = gf_const g1) as C2. { pose proof (keeps_run g clr GI) as K. rewrite run_init in K by exact Hi. fold (predict g) in K. rewrite E1 in K. cbn [bind] in K. rewrite E in K. destruct K as [_ K]. congruence. }
    assert (gf_init g1 = true) as Hi1. { destruct (predict_spec _ _ _ _ _ HS GI Hi E1) as (a & d & b & a1 & b1 & _ & _ & _ & _ & _ & _ & _ & _ & _ & _ & _ & Q & _). congruence. }
    destruct HS1 as [A1 A2 A3 A4 A5 (a & d & b & A6 & A7 & A8 & A9) A10]. unfold score in S. injection S as S1 S2 S3 S4 S5 S6 S7 S8.
    constructor; [congruence|congruence|rewrite S1; exact A3|rewrite (pick_eq g1); auto|rewrite S5; auto| |congruence]. exists a, d, b. rewrite S1, S2, S3, S8. auto.
  - unfold ImuFilter_RunOnce in E. rewrite Hi in E. destruct (maybe_clear clr g) as [g1|] eqn:E1; cbn [bind] in E; [|discriminate].
    apply maybe_score in E1. destruct E1 as (S & C & X & P).
    assert (SI c l (os ++ [o]) g1) as HS1 by (eapply SI_same; eauto). apply (SI_initialize c l (os ++ [o]) GRun g1 g') in E; auto; [|unfold score in S; congruence].
    (* the added GRun carries no gyro sample *)
    destruct E as [A1 A2 A3 A4 A5 A6 A7]. assert (g_gyros ((os ++ [o]) ++ [GRun]) = g_gyros (os ++ [o])) as GE by (rewrite gyros_snoc; cbn; apply app_nil_r).
    constructor; auto. { rewrite <- GE. exact A3. } destruct A6 as (a & d & b & (A61 & A62) & A63). exists a, d, b. unfold gyro_past. rewrite <- GE. auto.
Qed.
Lemma SI_step c l os o g g' : SI c l os g -> gyro_inv g -> gf_step g o = Ok g' -> SI c l (os ++ [o]) g'.
Proof.
  intros HS GI E. destruct o; cbn [gf_step] in E; try (apply (SI_run c l os _ _ _ _ HS GI E); reflexivity).
  - destruct (gf_gyro g) as [q|] eqn:Eg; cbn [of_opt bind] in E; [|discriminate]. injection E as <-. destruct HS as [B1 B2 B3 B4 B5 (a & d & b & (B6 & B6') & B7 & B8 & B9) B10].
    constructor; auto. { intros H. destruct (B3 H). congruence. }
    exists a, d, b. unfold gyro_past. rewrite gyros_snoc. cbn [g_gyros flat_map app gf_set_gyro gf_queues gf_gyro q_of gf_prev gf_last gf_init]. rewrite Eg in B6. cbn [q_of] in B6. split; [split; [rewrite B6, <- !app_assoc; reflexivity|exact B6']|]. auto.
  - destruct (gf_imu g) as [q|] eqn:Eg; cbn [of_opt bind] in E; [|discriminate]. injection E as <-. apply (SI_same c l os _ g); auto.
  - injection E as <-. apply (SI_same c l os _ g); auto.
  - destruct (gf_av g) as [q|] eqn:Eg; cbn [of_opt bind] in E; [|discriminate]. injection E as <-. apply (SI_same c l os _ g); auto.
  - change (ImuFilter_clear g) with (maybe_clear true g) in E. apply maybe_score in E. destruct E as (S & C & X & P). apply (SI_same c l os _ g); auto.
  - injection E as <-. apply (SI_same c l os _ g); auto.
Qed.
Lemma SI_hist c l : gcfg_ok c -> forall os g, gf_run (c0 c l) os = Ok g -> SI c l os g /\ gyro_inv g.
Proof.
  intros HC. induction os as [|o os IH] using rev_ind; intros g E.
  - injection E as <-. split; [apply setup_SI|]. apply setup_inv. apply make_inv. exact HC.
  - rewrite gf_run_app in E. destruct (gf_run (c0 c l) os) as [g1|]; cbn [bind] in E; [|discriminate]. destruct (IH g1 eq_refl) as [HS GI].
    unfold gf_run in E. cbn [foldM] in E. destruct (gf_step g1 o) as [g2|] eqn:E2; cbn [bind] in E; [|discriminate]. injection E as <-.
    split; [eapply SI_step; eauto|]. pose proof (keeps_step g1 o GI) as K. rewrite E2 in K. apply K.
Qed.

(** ** corrections *)
Lemma sees_imu b : observes (H_imu b) (fun x => if b then head3 x +v tail3 x else mkV 0 0 (v2 (head3 x) + v2 (tail3 x))).
Proof.
  split; [reflexivity|]. split; [reflexivity|]. intros x X1 X2. apply mat_ext; [reflexivity|rewrite nc_mult; exact X2|]. intros i j Hi Hj. rewrite nr_mult in Hi. change (i < 3)%nat in Hi. rewrite nc_mult, X2 in Hj.
  replace j with 0%nat by lia. rewrite ent_mult. change (nc (H_imu b)) with 6%nat. cbn [sum]. unfold H_imu. rewrite !ent_mk by lia. unfold ofV3, head3, tail3, getV3.
  destruct i as [|[|[|i]]]; [| | |lia]; rewrite ent_mk by lia; destruct b; cbn [Nat.eqb Nat.add andb orb vget vadd vmk v0 v1 v2]; ring.
Qed.
Lemma sees_enc b : observes (H_enc b) (fun x => if b then head3 x else mkV 0 0 (v2 (head3 x))).
Proof.
  split; [reflexivity|]. split; [reflexivity|]. intros x X1 X2. apply mat_ext; [reflexivity|rewrite nc_mult; exact X2|]. intros i j Hi Hj. rewrite nr_mult in Hi. change (i < 3)%nat in Hi. rewrite nc_mult, X2 in Hj.
  replace j with 0%nat by lia. rewrite ent_mult. change (nc (H_enc b)) with 6%nat. cbn [sum]. unfold H_enc. rewrite !ent_mk by lia. unfold ofV3, head3, tail3, getV3.
  destruct i as [|[|[|i]]]; [| | |lia]; rewrite ent_mk by lia; destruct b; cbn [Nat.eqb Nat.add andb orb vget vadd vmk v0 v1 v2]; ring.
Qed.
Lemma var_eq o : dflt o (1 / 10) * dflt o (1 / 10) = g_var o (1 / 10). Proof. destruct o; cbn; ring. Qed.
Lemma const_parts c g : gf_const g = gf_const (ImuAngVelEKF_config c) ->
  gf_Hi g = H_imu (dflt (q_flat c) false) /\ gf_He g = H_enc (dflt (q_flat c) false) /\ gf_Ri g = g_var (q_imu_std c) (1 / 10) *ms mid /\
  gf_Re g = g_var (q_enc_std c) (1 / 10) *ms mid /\ gf_thr g = g_thr c /\ gf_Rinv g = mtr (g_mount c).
Proof. unfold gf_const. intros B. injection B as _ B1 B2 B3 B4 B5 B6 _ _. rewrite B1, B2, B3, B4, B5, B6. cbn [ImuAngVelEKF_config gf_make gf_Ri gf_Re gf_Hi gf_He gf_thr gf_Rinv]. rewrite !var_eq. auto 7. Qed.
Section CORR.
Variables (c : gf_cfg).
Definition cst (g : gfilt) : Prop := gyro_inv g /\ gf_const g = gf_const (ImuAngVelEKF_config c).
Lemma imu_corr g m : cst g -> exists x P, AngVelFilterCorrectIMU g m = Ok (gf_set_est g x P, g_result x (i_t m) m) /\ cst (gf_set_est g x P) /\ imu_update c (gf_x g) (gf_P g) m x P.
Proof.
  intros [GI C]. destruct (correct_imu_ok g m GI) as (x & P & E & GI' & _ & K). destruct (const_parts _ _ C) as (C1 & C2 & C3 & C4 & C5 & C6).
  exists x, P. split; [exact E|]. split; [split; [exact GI'|exact C]|]. exists (gf_Hi g). rewrite C1, C3 in *. split; [apply sees_imu|exact K].
Qed.
Lemma enc_corr g m a : cst g -> exists x P, AngVelFilterCorrectEncoder g m a = Ok (gf_set_est g x P, g_result x (av_t a) m) /\ cst (gf_set_est g x P) /\ enc_update c (gf_x g) (gf_P g) a x P.
Proof.
  intros [GI C]. destruct (correct_enc_ok g m a GI) as (x & P & E & GI' & _ & K). destruct (const_parts _ _ C) as (C1 & C2 & C3 & C4 & C5 & C6).
  exists x, P. split; [exact E|]. split; [split; [exact GI'|exact C]|]. exists (gf_He g). rewrite C2, C4, C6 in *. split; [apply sees_enc|exact K].
Qed.
Lemma in_time_iff g t : gf_thr g = g_thr c -> (in_time g t = true -> usable c (gf_last g) t) /\ (in_time g t = false -> ~ usable c (gf_last g) t).
Proof.
  intros H. unfold in_time, usable. rewrite <- H. destruct (Req_EM_T _ _); [split; [auto|discriminate]|]. destruct (Rle_dec _ _); split; try discriminate; try tauto.
Qed.
(** statement about one correction *)
Definition corrected_by (me : corr_method) (g g' : gfilt) : Prop := exists ti ta new,
  g_corrected c (gf_last g) (gf_latest g) (gf_x g) (gf_P g) me (q_of (gf_imu g)) (q_of (gf_av g)) ti ta (gf_latest g') (gf_x g') (gf_P g') new /\
  q_of (gf_imu g) = ti ++ q_of (gf_imu g') /\ q_of (gf_av g) = ta ++ q_of (gf_av g') /\ gf_imus g' = gf_imus g /\ gf_out g' = gf_out g ++ new.
Lemma single_ok g g' : cst g -> SingleImuCorrection g false = Ok g' -> corrected_by SINGLE_IMU g g'.
Proof.
  intros HC E. assert (gf_thr g = g_thr c) as HT by apply (const_parts c g), HC. unfold SingleImuCorrection in E. destruct (gf_imu g) as [[|m q]|] eqn:Ei; cbn [of_opt bind maybe_clear] in E; [| |discriminate].
  - assert (g' = g) as -> by congruence. exists [], [], []. rewrite Ei. cbn [q_of]. split; [constructor|]. rewrite !app_nil_r. auto.
  - rewrite HT in E. assert (~ (gf_last g - g_thr c <= i_t m <= gf_last g) -> g' = g -> corrected_by SINGLE_IMU g g') as HW.
    { intros N ->. exists [], [], []. rewrite Ei. cbn [q_of]. split; [constructor; exact N|]. rewrite !app_nil_r. auto. }
    destruct (Rle_dec (gf_last g - i_t m) (g_thr c)); [|apply HW; [lra|congruence]]. destruct (Rle_dec (i_t m) (gf_last g)); [|apply HW; [lra|congruence]].
    cbn [bind] in E. assert (cst (gf_set_imu g q)) as HC' by (destruct HC; split; [apply (inv_same g); auto|auto]).
    destruct (imu_corr _ m HC') as (x & P & X & _ & K). rewrite X in E. cbn [bind] in E. injection E as <-.
    exists [m], [], [g_result x (i_t m) m]. rewrite Ei. cbn [q_of]. split; [apply G_single; [lra|exact K]|]. auto.
Qed.
Lemma av_ok g g' : cst g -> AngVelCorrection g false = Ok g' -> corrected_by ANG_VEL g g'.
Proof.
  intros HC E. unfold AngVelCorrection in E. destruct (gf_av g) as [[|a q]|] eqn:Ei; cbn [of_opt bind maybe_clear] in E; [| |discriminate].
  - assert (g' = g) as -> by congruence. exists [], [], []. rewrite Ei. cbn [q_of]. split; [constructor|]. rewrite !app_nil_r. auto.
  - destruct (gf_latest g) as [y|] eqn:El.
    + destruct (enc_corr g y a HC) as (x & P & X & _ & K). rewrite X in E. cbn [bind gf_push fst snd gf_set_out gf_set_est gf_av] in E. rewrite Ei in E. cbn [of_opt bind pop] in E. injection E as <-.
      exists [], [a], [g_result x (av_t a) y]. rewrite Ei, El. split; [|auto]. cbn. rewrite El. apply G_enc; auto.
    + cbn [bind] in E. rewrite Ei in E. cbn [of_opt bind pop] in E. injection E as <-. exists [], [a], []. rewrite Ei. split; [|cbn; rewrite app_nil_r; auto]. cbn. rewrite El. apply G_enc_early; auto.
Qed.
Lemma both_ok g g' : cst g -> SingleImuAngVelCorrection g false = Ok g' -> corrected_by SINGLE_IMU_PLUS_ANG_VEL g g'.
Proof.
  intros HC E. assert (gf_thr g = g_thr c) as HT by apply (const_parts c g), HC. unfold SingleImuAngVelCorrection in E.
  destruct (gf_imu g) as [qi|] eqn:Ei; cbn [of_opt bind] in E; [|discriminate]. destruct (gf_av g) as [qa|] eqn:Ea; cbn [of_opt bind] in E; [|discriminate].
  (* taking an IMU sample *)
  assert (forall m q, qi = m :: q -> (forall a, hd_error qa = Some a -> i_t m <= av_t a) ->
    (let g1 := gf_set_prev g (gf_last g) (gf_prev g) (Some m) in
     let* g2 := if in_time g1 (i_t m) then let* p := AngVelFilterCorrectIMU g1 m in Ok (gf_push p) else Ok g1 in
     let* q := of_opt (gf_imu g2) NullDeref in let* q := pop q in Ok (gf_set_imu g2 q)) = Ok g' -> corrected_by SINGLE_IMU_PLUS_ANG_VEL g g') as HI.
  { intros m q -> Hf X. cbn zeta in X. set (g1 := gf_set_prev g (gf_last g) (gf_prev g) (Some m)) in *. assert (cst g1) as HC1 by (destruct HC; split; [apply (inv_same g); auto|auto]).
    assert (gf_thr g1 = g_thr c) as HT1 by exact HT. destruct (in_time_iff g1 (i_t m) HT1) as [U1 U2]. destruct (in_time g1 (i_t m)).
    - destruct (imu_corr g1 m HC1) as (x & P & Y & _ & K). rewrite Y in X. cbn [bind gf_push fst snd gf_set_out gf_set_est gf_imu g1 gf_set_prev] in X. rewrite Ei in X. cbn [of_opt bind pop] in X. injection X as <-.
      exists [m], [], [g_result x (i_t m) m]. rewrite Ei, Ea. split; [|cbn; rewrite Ea; auto]. cbn. apply G_both_imu; [exact Hf|apply U1; reflexivity|exact K].
    - cbn [bind gf_imu g1 gf_set_prev] in X. rewrite Ei in X. cbn [of_opt bind pop] in X. injection X as <-.
      exists [m], [], []. rewrite Ei, Ea. split; [|cbn; rewrite Ea, app_nil_r; auto]. cbn. apply G_both_imu_old; [exact Hf|apply U2; reflexivity]. }
  assert (forall a q, qa = a :: q -> (forall m, hd_error qi = Some m -> av_t a < i_t m) ->
    (let* g1 := match gf_latest g with None => Ok g | Some m => if in_time g (av_t a) then let* p := AngVelFilterCorrectEncoder g m a in Ok (gf_push p) else Ok g end in
     let* q := of_opt (gf_av g1) NullDeref in let* q := pop q in Ok (gf_set_av g1 q)) = Ok g' -> corrected_by SINGLE_IMU_PLUS_ANG_VEL g g') as HA.
  { intros a q -> Hf X. destruct (in_time_iff g (av_t a) HT) as [U1 U2].
    assert ((gf_latest g = None \/ ~ usable c (gf_last g) (av_t a)) -> (let* q := of_opt (gf_av g) NullDeref in let* q := pop q in Ok (gf_set_av g q)) = Ok g' -> corrected_by SINGLE_IMU_PLUS_ANG_VEL g g') as HO.
    { intros N Y. rewrite Ea in Y. cbn [of_opt bind pop] in Y. injection Y as <-. exists [], [a], []. rewrite Ei, Ea. split; [|cbn; rewrite Ei, app_nil_r; auto]. cbn. apply G_both_enc_old; assumption. }
    destruct (gf_latest g) as [y|] eqn:El; [|apply HO; auto]. destruct (in_time g (av_t a)); [|apply HO; auto].
    destruct (enc_corr g y a HC) as (x & P & Y & _ & K). rewrite Y in X. cbn [bind gf_push fst snd gf_set_out gf_set_est gf_av] in X. rewrite Ea in X. cbn [of_opt bind pop] in X. injection X as <-.
    exists [], [a], [g_result x (av_t a) y]. rewrite Ei, Ea, El. split; [|cbn; rewrite Ei; auto]. cbn. rewrite El. apply G_both_enc; auto. }
  destruct qi as [|m qi], qa as [|a qa]; cbn [hd_error maybe_clear bind] in E.
  - assert (g' = g) as -> by congruence. exists [], [], []. rewrite Ei, Ea. split; [constructor|]. cbn. rewrite !app_nil_r. auto.
  - apply (HA a qa); [reflexivity|discriminate|exact E].
  - apply (HI m qi); [reflexivity|discriminate|exact E].
  - destruct (Rle_dec (i_t m) (av_t a)); cbn [bind] in E.
    + apply (HI m qi); [reflexivity| |exact E]. intros a' [= <-]. assumption.
    + apply (HA a qa); [reflexivity| |exact E]. intros m' [= <-]. lra.
Qed.
Lemma multi_ok : forall todo g fu done g', cst g -> multi_loop g fu done todo = Ok g' -> exists qs' new,
  g_multi c (gf_last g) (gf_x g) (gf_P g) fu todo qs' (gf_x g') (gf_P g') new /\ gf_imus g' = done ++ qs' /\ gf_out g' = gf_out g ++ new /\
  gf_imu g' = gf_imu g /\ gf_av g' = gf_av g /\ gf_latest g' = gf_latest g.
Proof.
  induction todo as [|[|m q] qs IH]; intros g fu done g' HC E; cbn [multi_loop] in E.
  - injection E as <-. exists [], []. split; [constructor|]. rewrite !app_nil_r. auto.
  - destruct (IH _ _ _ _ HC E) as (qs' & new & A & B & D). exists ([] :: qs'), new. split; [constructor; exact A|]. split; [rewrite B, <- app_assoc; reflexivity|exact D].
  - assert (gf_thr g = g_thr c) as HT by apply (const_parts c g), HC. destruct (in_time_iff g (i_t m) HT) as [U1 U2]. destruct (in_time g (i_t m)).
    + destruct (imu_corr g m HC) as (x & P & Y & HC1 & K). rewrite Y in E. cbn [bind] in E.
      assert (cst (gf_set_out (gf_set_est g x P) (gf_out (gf_set_est g x P) ++ [g_result x (i_t m) m]))) as HC2 by (destruct HC1; split; [eapply inv_same; [eassumption|auto..]|auto]).
      destruct (IH _ _ _ _ HC2 E) as (qs' & new & A & B & D1 & D2). exists (q :: qs'), (g_result x (i_t m) m :: new). split; [apply M_use with (x1 := x) (P1 := P); [apply U1; reflexivity|exact K|exact A]|].
      split; [rewrite B, <- app_assoc; reflexivity|]. split; [rewrite D1; cbn; rewrite <- app_assoc; reflexivity|exact D2].
    + cbn [bind] in E. destruct fu as [f|].
      * assert (cst (gf_set_out g (gf_out g ++ [f]))) as HC2 by (destruct HC; split; [apply (inv_same g); auto|auto]).
        destruct (IH _ _ _ _ HC2 E) as (qs' & new & A & B & D1 & D2). exists (q :: qs'), (f :: new). split; [apply (M_old c _ _ _ (Some f)); [apply U2; reflexivity|exact A]|].
        split; [rewrite B, <- app_assoc; reflexivity|]. split; [rewrite D1; cbn; rewrite <- app_assoc; reflexivity|exact D2].
      * destruct (IH _ _ _ _ HC E) as (qs' & new & A & B & D1 & D2). exists (q :: qs'), new. split; [apply (M_old c _ _ _ None); [apply U2; reflexivity|exact A]|].
        split; [rewrite B, <- app_assoc; reflexivity|]. split; [exact D1|exact D2].
Qed.
End CORR.

(** ** the theorem *)
Lemma thm_gyro_iteration c l os g g' : greach c l os g -> gf_init g = true -> gf_step g GRun = Ok g' -> g_iteration c l os g g'.
Proof.
  intros [HC R] Hi E. destruct (SI_hist c l HC os g R) as [HS GI]. cbn [gf_step] in E. rewrite run_init in E by exact Hi. fold (predict g) in E.
  destruct (predict g) as [g1|] eqn:E1; cbn [bind] in E; [|discriminate].
  assert (gyro_inv g1 /\ gf_const g1 = gf_const g) as [GI1 C1]. { unfold predict in E1. destruct (gf_pm g); [apply propagate_inv; auto|]. destruct (walk_inv g GI) as (x & X & Y & Z). rewrite X in E1. injection E1 as <-. auto. }
  assert (cst c g1) as HC1 by (split; [exact GI1|rewrite C1; apply HS]).
  destruct (predict_spec _ _ _ _ _ HS GI Hi E1) as (a & d & b & a1 & b1 & P1 & P2 & P3 & P4 & P5 & Q1 & Q2 & Q3 & Q4 & Q5 & Q6 & Q7 & _).
  exists a, d, b, (gf_x g1), (gf_P g1), (gf_last g1), (gf_latest g1). split; [exact P1|].
  pose proof (sc_corr g1 false) as S. rewrite E in S. cbn in S. injection S as S1 S2 S3 S4 S5 S6 S7 S8. rewrite S1. split; [exact P5|].
  pose proof (si_cm _ _ _ _ HS Hi) as HM. unfold corr_part in E. rewrite <- Q5 in HM. rewrite <- Q1, <- Q2, <- Q3, <- Q4.
  split; intros M; rewrite HM in E.
  - destruct (the_method c l) eqn:EM; try congruence.
    + apply (both_ok c); assumption.
    + apply (single_ok c); assumption.
    + apply (av_ok c); assumption.
    + cbn in E. injection E as <-. exists [], [], []. split; [constructor|]. rewrite !app_nil_r. auto.
  - rewrite M in E. cbn [maybe_clear bind] in E. unfold MultiImuCorrection in E. destruct (multi_ok c _ _ _ _ _ HC1 E) as (qs' & new & A & B & D1 & D2 & D3 & D4).
    exists new. cbn [app] in B. rewrite B, D2, D3, D4. auto.
Qed.

(** ** the first estimate *)
Lemma vec6_eq x : nr x = 6%nat -> nc x = 1%nat -> x = vec6 (head3 x) (tail3 x).
Proof.
  intros X1 X2. apply mat_ext; [exact X1|exact X2|]. intros i j Hi Hj. rewrite X1 in Hi. rewrite X2 in Hj. replace j with 0%nat by lia. unfold vec6, head3, tail3, getV3. rewrite ent_mk by lia.
  destruct i as [|[|[|[|[|[|i]]]]]]; [reflexivity..|lia].
Qed.
Lemma init_P g g' : gf_init g = false -> ImuFilter_RunOnce g false = Ok g' ->
  gf_P g' = gf_P g /\ (gf_static g = false -> gf_x g' = gf_x g) /\ (gf_static g = true -> (exists z, gf_size g = Some z /\ (z < 0)%Z) -> gf_init g' = false).
Proof.
  intros Hi E. unfold ImuFilter_RunOnce in E. rewrite Hi in E. cbn [maybe_clear bind] in E. set (g1 := gf_mode g _ _ _ _ _) in E.
  unfold InitializeFilter in E. change (gf_size g1) with (gf_size g) in E. destruct (gf_size g) as [z|] eqn:Ez; cbn [of_opt bind] in E; [|discriminate]. change (gf_static g1) with (gf_static g) in E.
  assert (forall P : Prop, (gf_static g = true -> (z < 0)%Z -> P) -> gf_static g = true -> (exists z0, Some z = Some z0 /\ (z0 < 0)%Z) -> P) as HZ by (intros P H1 H2 (z0 & [= <-] & H3); auto).
  destruct (gf_static g) eqn:Es.
  - rewrite andb_true_r in E. destruct (vec_short (length (gf_vec g1)) z) eqn:Ev.
    + change (gf_imu g1) with (gf_imu g) in E. destruct (gf_imu g) as [[|m q]|]; cbn [of_opt bind] in E; [| |discriminate].
      * injection E as <-. split; [reflexivity|]. split; [discriminate|auto].
      * cbn [gf_set_vec gf_set_imu gf_queues gf_pm g1 gf_mode gf_gyro] in E. destruct (gf_pm g).
        -- destruct (gf_gyro g) as [[|m0 qg]|]; cbn [of_opt bind] in E; [| |discriminate]; injection E as <-; (split; [reflexivity|]; split; [discriminate|auto]).
        -- injection E as <-. split; [reflexivity|]. split; [discriminate|auto].
    + destruct (average (gf_vec g1)) as [avg|]; cbn [bind] in E; [|discriminate]. set (g2 := gf_set_est g1 _ _) in E.
      destruct (match gf_pm g2 with GYRO => _ | RANDOM_WALK => _ end) as [g3|] eqn:E3; cbn [bind] in E; [|discriminate].
      assert (gf_P g3 = gf_P g2) as X3. { destruct (gf_pm g2); [destruct (gf_gyro g2); cbn [of_opt bind] in E3; [|discriminate]|]; injection E3 as <-; reflexivity. }
      destruct (match gf_cm g3 with SINGLE_IMU_PLUS_ANG_VEL => _ | _ => _ end) as [g4|] eqn:E4; cbn [bind] in E; [|discriminate].
      assert (gf_P g4 = gf_P g3) as X4. { destruct (gf_cm g3); try (destruct (gf_imu g3); cbn [of_opt bind] in E4; [|discriminate]); injection E4 as <-; reflexivity. }
      destruct (match gf_cm g4 with SINGLE_IMU_PLUS_ANG_VEL => _ | _ => _ end) as [g5|] eqn:E5; cbn [bind] in E; [|discriminate].
      assert (gf_P g5 = gf_P g4) as X5. { destruct (gf_cm g4); try (destruct (gf_av g4); cbn [of_opt bind] in E5; [|discriminate]); injection E5 as <-; reflexivity. }
      injection E as <-. split; [cbn; rewrite X5, X4, X3; reflexivity|]. split; [discriminate|]. apply HZ. intros _ Hz. unfold vec_short in Ev. destruct (Z.ltb_spec z 0); [discriminate|lia].
  - rewrite andb_false_r in E. injection E as <-. split; [reflexivity|]. split; [auto|discriminate].
Qed.
Lemma thm_gyro_starts c l os g g' : greach c l os g -> gf_init g = false -> forallb no_gclear os = true -> In AImu l \/ dflt (q_static c) false = false ->
  gf_step g GRun = Ok g' -> gf_init g' = true -> g_starts c os g'.
Proof.
  intros [HC R] Hi Hcl HI E Hi'. destruct (SI_hist c l HC os g R) as [HS GI]. destruct (si_est _ _ _ _ HS Hi) as [X1 X2]. pose proof (si_const _ _ _ _ HS) as B. unfold gf_const in B. injection B as _ _ _ _ _ _ _ B1 B2.
  cbn [gf_step] in E. destruct (init_P g g' Hi E) as (A1 & A2 & A3). split; [congruence|]. cbn [ImuAngVelEKF_config gf_make gf_static gf_size] in B1, B2. destruct (dflt (q_static c) false) eqn:ES.
  - destruct HI as [HI|HI]; [|discriminate]. cbn zeta. set (z := dflt (q_size c) 250%Z) in *. destruct (Z.ltb_spec z 0) as [Hz|Hz]; [rewrite (A3 B1 (ex_intro _ z (conj B2 Hz))) in Hi'; discriminate|].
    set (c' := mkGCfg (q_quat c) (q_flat c) (q_thr c) (q_method c) (Some true) (Some (Z.of_nat (Z.to_nat z))) (q_bias c) (q_std c) (q_bias_std c) (q_fstd c) (q_fbias_std c) (q_imu_std c) (q_enc_std c)).
    assert (ImuAngVelEKF_config c = ImuAngVelEKF_config c') as Ecfg. { unfold ImuAngVelEKF_config, gf_make, c'. cbn [q_quat q_flat q_thr q_method q_static q_size q_bias q_std q_bias_std q_fstd q_fbias_std q_imu_std q_enc_std dflt]. rewrite ES. fold z. rewrite Z2Nat.id by exact Hz. reflexivity. }
    rewrite Ecfg in R. destruct (thm_calib os _ (Z.to_nat z) g g' (setup_calib c' (Z.to_nat z) l eq_refl eq_refl HI) Hcl R Hi E Hi') as (T1 & T2 & T3).
    split; [exact T1|]. assert (gyro_inv g') as GI'. { pose proof (keeps_step g GRun GI) as K. cbn [gf_step] in K. rewrite E in K. apply K. }
    rewrite (vec6_eq (gf_x g')) by apply GI'. rewrite T2, T3. reflexivity.
  - rewrite A2 by exact B1. auto.
Qed.
