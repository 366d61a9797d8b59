(** Proofs for the complete ROS nodes: C81. *)
From Coq Require Import Reals ZArith List Bool Arith Lia Lra.
From Verif Require Import Res Vec3 Mat MatInv Psd Spec LieGroup RobotState SpecFilter Imu Propagation SpecProp VelCorr LegCorr Quat ImuThms Kinematics SpecKin KinVel Estimator SpecEst EstSafe EstPub EstTime SpecConv SpecSched Sched SchedMore ClearThms
  Driver SpecDriver DriverThms Ros SpecRos RosThms RosPub RosOdom Node SpecNode.
Import ListNotations.
Local Open Scope R_scope.

(** the sample an IMU message is turned into *)
Definition sof (m : imu_msg) : imu := mkImu (time_of (im_stamp m)) (if Req_EM_T (quat_norm (im_q m)) 0 then mkQ 1 0 0 0 else im_q m) (im_w m) (im_a m).
Lemma sof_for m : sample_for m (sof m).
Proof.
  unfold sof. repeat split; cbn [i_q]; intros H; destruct (Req_EM_T (quat_norm (im_q m)) 0) as [E|E]; auto; apply quat_norm_0 in H || (apply quat_norm_0 in E); contradiction.
Qed.
Definition imsgs (ms : list rosmsg) : list imu := map sof (imu_messages ms).
Definition otimes (ms : list rosmsg) : list R := map (fun m => time_of (om_stamp m)) (odom_messages ms).
Lemma rising_tl x l : rising (x :: l) -> rising l.
Proof. destruct l; [intros _; exact I|]. intros [_ H]. exact H. Qed.

(** ** callbacks *)
Definition odom_inv (sn : speed_sensor) (o : odom_sub) (ms : list rosmsg) : Prop :=
  match sn with
  | OdomSource t q => SO3 (toRotationMatrix q) /\ os_ext o = Some (transform (toRotationMatrix q) t) /\ os_q o = [[]] /\
      ((os_prev o = [None] /\ rising (otimes ms)) \/ exists t0 A p, os_prev o = [Some (t0, transform A p)] /\ SO3 A /\ rising (t0 :: otimes ms))
  | _ => True
  end.
Lemma odom_skip sn o m ms : (forall x, m <> MOdom x) -> odom_inv sn o (m :: ms) -> odom_inv sn o ms.
Proof.
  intros H. assert (otimes (m :: ms) = otimes ms) as E. { unfold otimes, odom_messages. destruct m; try reflexivity. exfalso. eapply H. reflexivity. }
  unfold odom_inv. rewrite E. auto.
Qed.
Definition push_op (o : op) : Prop := match o with OImu _ => True | OVel i _ | OLeg i _ => i = 0%nat | _ => False end.
Lemma imus_vel i l : imus (map (OVel i) l) = []. Proof. induction l; cbn; auto. Qed.
Lemma vels_vel i l : vels (map (OVel i) l) = l. Proof. induction l as [|a l IH]; [reflexivity|]. cbn. unfold vels in IH. rewrite IH. reflexivity. Qed.
Lemma legs_vel i l : legs (map (OVel i) l) = []. Proof. induction l; cbn; auto. Qed.
Lemma push_vel l : Forall push_op (map (OVel 0) l). Proof. induction l; cbn; constructor; cbn; auto. Qed.
Lemma contacts_of lm c : (4 <= length c)%nat -> length (lm_legs lm) = 4%nat -> (forall l, exists o, nth_error (lm_legs lm) (leg_id l) = Some o /\ nth_error c (leg_id l) = Some (lo_contact o)) -> map lo_contact (lm_legs lm) = firstn 4 c.
Proof.
  intros H1 H2 H. destruct (lm_legs lm) as [|a0 [|a1 [|a2 [|a3 [|]]]]]; try discriminate. destruct c as [|c0 [|c1 [|c2 [|c3 r]]]]; cbn in H1; try lia.
  destruct (H FR) as (o0 & X0 & Y0). destruct (H FL) as (o1 & X1 & Y1). destruct (H HR) as (o2 & X2 & Y2). destruct (H HL) as (o3 & X3 & Y3). cbn in *. congruence.
Qed.
Lemma leg_callback s c m q : (4 <= length c)%nat -> (12 <= length (js_pos m))%nat -> (12 <= length (js_vel m))%nat ->
  exists k lm, MiniCheetahKinCallBack s c m q = Ok (q ++ [(time_of s, k)]) /\ leg_view (time_of s) k = Ok lm /\ lm_t lm = time_of s /\ map lo_contact (lm_legs lm) = firstn 4 c.
Proof.
  intros H1 H2 H3. destruct (thm_leg_msg s c m q H1 H2 H3) as (k & lm & E & V & T & C1 & C2 & C3 & L). exists k, lm. split; [exact E|]. split; [exact V|]. split; [exact T|].
  apply contacts_of; [exact H1| |]; [|intros l; destruct (L l) as (o & A & B & _); eauto].
  assert (kin_shaped k) as KS. { unfold MiniCheetahKinCallBack in E. rewrite !read_n_ok in E by lia. cbn [bind] in E. match type of E with Ok (_ ++ [(_, ?x)]) = _ => assert (k = x) as -> by (assert (X : q ++ [(time_of s, x)] = q ++ [(time_of s, k)]) by congruence; apply app_inv_head in X; congruence) end. constructor; reflexivity. }
  destruct (thm_leg_measurement (time_of s) k KS) as (lm' & V' & _ & L' & _); [rewrite C2, firstn_length; lia|rewrite C1, firstn_length; lia|]. congruence.
Qed.
Lemma odom_first o m sn t q : sn = OdomSource t q -> os_prev o = [None] -> os_q o = [[]] -> Odom2VelocityCallback o m 0 = Ok (mkOS (os_ext o) [Some (time_of (om_stamp m), transform (toRotationMatrix (om_q m)) (om_p m))] [[]]).
Proof. intros _ H1 H2. unfold Odom2VelocityCallback, vec_at. rewrite H1, H2. reflexivity. Qed.
Lemma odom_next o m E pT t0 A p : os_ext o = Some (transform E pT) -> SO3 E -> SO3 A -> os_prev o = [Some (t0, transform A p)] -> os_q o = [[]] -> t0 < time_of (om_stamp m) ->
  exists v, Odom2VelocityCallback o m 0 = Ok (mkOS (os_ext o) [Some (time_of (om_stamp m), transform (toRotationMatrix (om_q m)) (om_p m))] [[mkVM (time_of (om_stamp m)) v]]).
Proof.
  intros HE SE SA HP HQ HT. eexists. unfold Odom2VelocityCallback, vec_at. rewrite HP, HQ, HE. cbn [nth_error of_opt bind upd os_prev os_ext].
  rewrite (tf_inv E pT SE). cbn [bind]. rewrite (tf_inv _ p SA). cbn [bind]. rewrite cmul_ok by reflexivity. cbn [bind]. rewrite tf_mul. rewrite cmul_ok by reflexivity. cbn [bind]. rewrite tf_mul. rewrite cmul_ok by reflexivity. cbn [bind].
  destruct (Req_EM_T (time_of (om_stamp m) - t0) 0) as [C|C]; [exfalso; lra|]. cbn [check bind]. reflexivity.
Qed.
Lemma callback_ok sn o m ms : sensor_ok sn -> message_ok sn m -> odom_inv sn o (m :: ms) ->
  exists o' ops, callback sn o m = Ok (o', ops) /\ odom_inv sn o' ms /\ Forall push_op ops /\ imus ops = imsgs [m] /\ speed_for sn m (vels ops) /\ legs_for sn m (legs ops).
Proof.
  intros HS HM HI. destruct m as [m|m|s v|s v c|m|s c m].
  - exists o, [OImu (sof m)]. pose proof (odom_skip sn o (MImu m) ms ltac:(discriminate) HI) as HI'. cbn [callback message_ok] in *.
    assert (IMUCallback m [] = Ok [sof m]) as ->.
    { destruct (thm_imu_msg m []) as (A & B & _). unfold sof. destruct (Req_EM_T (quat_norm (im_q m)) 0) as [E|E].
      - apply quat_norm_0 in E. rewrite A by exact E. reflexivity.
      - destruct HM as [HM|HM]; [exfalso; apply E, quat_norm_0, HM|]. rewrite B by (rewrite HM, Rminus_eq_0, Rabs_R0; lra). reflexivity. }
    cbn. repeat split; auto. repeat constructor.
  - pose proof (odom_skip sn o (MJoint m) ms ltac:(discriminate) HI) as HI'. destruct sn; cbn [callback message_ok speed_for legs_for] in *.
    3,4,5,6: exists o, []; split; [reflexivity|]; split; [exact HI'|]; cbn; auto.
    + destruct (js_vel m) as [|e0 [|e1 [|e2 [|e3 r]]]] eqn:E; cbn in HM; try lia. rewrite (thm_encoder _ _ _ _ _ _ _ _ E). cbn [bind app]. eexists o, _. split; [reflexivity|]. rewrite vels_vel, imus_vel, legs_vel.
      repeat split; auto using push_vel. do 5 eexists. split; reflexivity.
    + destruct (le_lt_dec (length (js_vel m)) 2) as [L|L].
      * rewrite (proj1 (thm_fetch_rejects m radius 0 [] [] L)). cbn [bind]. exists o, []. cbn. repeat split; auto.
      * destruct (js_vel m) as [|e0 [|e1 [|e2 r]]] eqn:E; cbn in L; try lia. rewrite (thm_encoder_fetch _ _ _ _ _ _ _ E). cbn [bind app]. eexists o, _. split; [reflexivity|]. rewrite vels_vel, imus_vel, legs_vel.
        repeat split; auto using push_vel. right. do 4 eexists. split; reflexivity.
  - pose proof (odom_skip sn o (MTwist s v) ms ltac:(discriminate) HI) as HI'. destruct sn; cbn [callback]; (eexists o, _; split; [reflexivity|]; split; [exact HI'|]); cbn; repeat split; auto; try (repeat constructor); try (destruct v; reflexivity).
  - pose proof (odom_skip sn o (MTwistCov s v c) ms ltac:(discriminate) HI) as HI'. destruct sn; cbn [callback]; (eexists o, _; split; [reflexivity|]; split; [exact HI'|]); cbn; repeat split; auto; try (repeat constructor); try (destruct v; reflexivity).
  - destruct sn as [| | | |t q|]; cbn [callback message_ok speed_for legs_for] in *. all: try (exists o, []; cbn; repeat split; auto; fail).
    destruct HI as (SQ & HE & HQ & HP). assert (SO3 (toRotationMatrix (om_q m))) as SM by (apply thm_quat_unit; exact HM). destruct HP as [[HP HR]|(t0 & A & p & HP & SA & HR)].
    + rewrite (odom_first o m _ t q eq_refl HP HQ). cbn. eexists _, _. split; [reflexivity|]. split.
      { split; [exact SQ|]. split; [exact HE|]. split; [reflexivity|]. right. do 3 eexists. split; [reflexivity|]. split; [exact SM|]. exact HR. }
      cbn. auto 6.
    + destruct HR as [HT HR]. destruct (odom_next o m _ _ _ _ _ HE SQ SA HP HQ HT) as (v & ->). cbn. eexists _, _. split; [reflexivity|]. split.
      { split; [exact SQ|]. split; [exact HE|]. split; [reflexivity|]. right. do 3 eexists. split; [reflexivity|]. split; [exact SM|]. exact HR. }
      cbn. split; [repeat constructor|]. eauto 6.
  - pose proof (odom_skip sn o (MLegs s c m) ms ltac:(discriminate) HI) as HI'. destruct sn; cbn [callback message_ok speed_for legs_for] in *. all: try (exists o, []; split; [reflexivity|]; split; [exact HI'|]; cbn; repeat split; auto; fail).
    destruct HM as (H1 & H2 & H3). destruct (leg_callback s c m [] H1 H2 H3) as (k & lm & E & V & T & C). rewrite E. cbn [bind app foldM fst snd]. rewrite V. cbn [bind app]. exists o, [OLeg 0 lm]. split; [reflexivity|]. split; [exact I|]. split; [repeat constructor|]. cbn. eauto 8.
Qed.

(** ** the estimator inside the node *)
Lemma push_exec : forall ops e fut, Forall push_op ops -> est_ok (imus ops ++ fut) e -> exists e', exec e ops e' [] /\ est_ok fut e' /\ e_out e' = e_out e.
Proof.
  induction ops as [|o ops IH]; intros e fut HF HE.
  - exists e. split; [split; reflexivity|]. auto.
  - inversion HF as [|? ? H1 H2]; subst. rewrite imus_cons, <- app_assoc in HE. assert (allowed e o) as HA by (destruct o; try contradiction; exact I).
    destruct (step_safe _ _ _ HE HA) as [(e1 & E1 & K1)|(_ & l & -> & _)]; [|contradiction]. destruct (IH e1 fut H2 K1) as (e' & X & K & O).
    assert (uses ROut o = false) as U by (destruct o; try contradiction; reflexivity). exists e'. split; [|split; [exact K|rewrite O; apply (out_keeps _ _ _ U E1)]].
    cbn [exec]. exists e1, []. rewrite (pub1_callback _ _ _ U E1). auto.
Qed.
Lemma out_grows fut e v e' : est_ok (op_imu (op_of e v) ++ fut) e -> v <> ETake -> prog_step e v = Ok e' -> e_out e' = e_out e ++ pub1 e e'.
Proof.
  intros HE NT E. destruct (op_of_step _ _ v HE) as [Es Ha]. rewrite Es in E. assert (exists x, e_out e' = e_out e ++ x) as (x & Ex).
  { remember (op_of e v) as o. destruct (uses ROut o) eqn:U; [|exists []; rewrite app_nil_r; apply (out_keeps _ _ _ U E)]. destruct o; try discriminate; cbn [op_imu app allowed est_step] in *.
    - destruct Ha as [En Hb]. unfold BiasInitialized in Hb. destruct (e_prop e) as [ip|] eqn:Hip; [|discriminate]. pose proof (InitState_spec _ _ _ _ _ HE En Hip E) as S. destruct (ip_queue ip).
      + subst e'. exists []. cbn. rewrite app_nil_r. reflexivity.
      + destruct S as (us & _ & _ & _ & Ho & _). eauto.
    - destruct (RunOnce_spec _ _ l HE Ha) as (e1 & fs & b & tp & R & _ & _ & _ & _ & _ & Ho & _). rewrite R in E. assert (e1 = e') as <- by congruence. eauto.
    - exfalso. eapply op_of_clear. symmetry. exact Heqo.
    - destruct v; try discriminate; [|contradiction]. exfalso. cbn in Heqo. destruct (e_enabled e); [discriminate|]. destruct (BiasInitialized e) as [[]|]; discriminate. }
  rewrite Ex at 1. f_equal. unfold pub1. rewrite Ex. symmetry. apply skip_app.
Qed.
Lemma waiting_pub fut e : est_ok fut e -> Forall publishable (e_out e).
Proof.
  intros H. pose proof (ok_pub _ _ H) as W. unfold waiting in W. apply Forall_app in W. destruct W as [W _]. eapply Forall_impl; [|exact W]. intros s (n & t & A & _ & B). exists (2 + n)%nat, t. auto.
Qed.
Lemma set_out_self e : e_set_out e (e_out e) = e. Proof. destruct e; reflexivity. Qed.
Lemma seen_q n : pb_q (seen n) = e_out (n_est n). Proof. reflexivity. Qed.
Lemma set_q_twice p a b : pub_set_q (pub_set_q p a) b = pub_set_q p b. Proof. reflexivity. Qed.
Lemma set_q_self p : pub_set_q p (pb_q p) = p. Proof. destruct p; reflexivity. Qed.
Lemma push_many k pr par : ratio_is k pr par -> forall ss l p, pinv k pr par l p -> Forall publishable (pushed_states l ++ ss) ->
  pinv k pr par (l ++ map PPush ss) (pub_set_q p (pb_q p ++ ss)) /\ pushed_states (l ++ map PPush ss) = pushed_states l ++ ss.
Proof.
  intros HR. induction ss as [|s ss IH]; intros l p HP HF; cbn [map].
  - rewrite !app_nil_r. rewrite set_q_self. auto.
  - destruct (pub_step_inv k pr par l p (PPush s) HR HP ltac:(discriminate)) as (p' & E & HP').
    { rewrite pushed_snoc. replace (s :: ss) with ([s] ++ ss) in HF by reflexivity. rewrite app_assoc in HF. apply Forall_app in HF. apply HF. }
    cbn [pub_step] in E. injection E as <-. destruct (IH _ _ HP') as [A B]. { rewrite pushed_snoc, <- app_assoc. exact HF. }
    rewrite <- app_assoc in A, B. cbn [app pub_set_q pb_q] in A, B. rewrite <- app_assoc in A. split; [exact A|]. rewrite B, pushed_snoc, <- app_assoc. reflexivity.
Qed.

(** ** the node *)
Record ni (k : nat) (pr par : R) (sn : speed_sensor) (ms : list rosmsg) (l : list pop_) (n : node) : Prop := {
  ni_est : est_ok (imsgs ms) (n_est n);
  ni_odom : odom_inv sn (n_odom n) ms;
  ni_pub : pinv k pr par l (seen n);
  ni_good : Forall publishable (pushed_states l) }.
Definition vmsg (v : nodev) : list rosmsg := match v with NMsg m => [m] | _ => [] end.
Lemma imsgs_app a b : imsgs (a ++ b) = imsgs a ++ imsgs b.
Proof. unfold imsgs, imu_messages. rewrite flat_map_app, map_app. reflexivity. Qed.
Lemma pub_only k pr par sn ms l n x n' : ratio_is k pr par -> ni k pr par sn ms l n -> (x = PCheck \/ x = PTake \/ x = PPath) ->
  (let* p := pub_step (seen n) x in Ok (mkNode (e_set_out (n_est n) (pb_q p)) (n_odom n) p)) = n' -> exists n1, n' = Ok n1 /\
    exists ops, exec (n_est n) ops (n_est n1) [] /\ ops = (if (match x with PTake => pb_took (n_pub n) | _ => false end) then [OPopOut] else []) /\ ni k pr par sn ms (l ++ [x]) n1.
Proof.
  intros HR [H1 H2 H3 H4] HX <-. destruct (pub_step_inv k pr par l (seen n) x HR H3) as (p & E & HP); [destruct HX as [->|[->| ->]]; discriminate| |].
  { rewrite pushed_snoc. destruct HX as [->|[->| ->]]; rewrite app_nil_r; exact H4. }
  rewrite E. cbn [bind]. eexists. split; [reflexivity|]. cbn [n_est].
  assert (Forall publishable (pushed_states (l ++ [x]))) as HG by (rewrite pushed_snoc; destruct HX as [->|[->| ->]]; rewrite app_nil_r; exact H4).
  destruct (match x with PTake => pb_took (n_pub n) | _ => false end) eqn:TK.
  - assert (x = PTake) as -> by (destruct HX as [->|[->| ->]]; try discriminate; reflexivity). assert (pb_q p = tl (e_out (n_est n))) as Q.
    { cbn [pub_step] in E. unfold PoseTake in E. change (pb_took (seen n)) with (pb_took (n_pub n)) in E. rewrite TK in E. rewrite seen_q in E. destruct (e_out (n_est n)) as [|s q]; [discriminate|].
      repeat (apply bind_inv in E; destruct E as (? & _ & E)). assert (X : p = p) by reflexivity. injection E as E. rewrite <- E. reflexivity. }
    exists [OPopOut]. rewrite Q. cbn [exec]. assert (est_step (n_est n) OPopOut = Ok (e_set_out (n_est n) (tl (e_out (n_est n))))) as S by reflexivity.
    assert (est_ok (imsgs ms) (e_set_out (n_est n) (tl (e_out (n_est n))))) as K. { destruct (step_safe (imsgs ms) (n_est n) OPopOut H1 I) as [(e' & S' & K)|(_ & l0 & X & _)]; [|discriminate]. cbn [est_step] in S'. injection S' as <-. exact K. }
    split; [|split; [reflexivity|]].
    + do 2 eexists. split; [exact I|]. split; [reflexivity|]. split; [|split; reflexivity]. unfold pub1. cbn [e_out e_set_out e_set]. rewrite app_nil_r. symmetry. apply skipn_all2. destruct (e_out (n_est n)); cbn; lia.
    + constructor; cbn [n_est n_odom n_pub]; auto. replace (seen _) with p; [exact HP|]. unfold seen. cbn [n_pub n_est]. change (e_out (e_set_out (n_est n) (tl (e_out (n_est n))))) with (tl (e_out (n_est n))). rewrite <- Q, set_q_self. reflexivity.
  - assert (pb_q p = e_out (n_est n)) as Q.
    { destruct HX as [->|[->| ->]]; cbn [pub_step] in E.
      - injection E as <-. destruct (pb_took _); reflexivity.
      - unfold PoseTake in E. change (pb_took (seen n)) with (pb_took (n_pub n)) in E. rewrite TK in E. injection E as <-. reflexivity.
      - injection E as <-. unfold PathPublish. destruct (rev (pb_poses (seen n))); reflexivity. }
    exists []. rewrite Q, set_out_self. split; [split; reflexivity|]. split; [reflexivity|]. constructor; cbn [n_est n_odom n_pub]; auto. unfold seen. cbn [n_pub n_est]. rewrite <- Q, set_q_self. exact HP.
Qed.
Lemma exec_one e o e1 : allowed e o -> est_step e o = Ok e1 -> exec e [o] e1 (pub1 e e1).
Proof. intros A S. cbn [exec]. exists e1, []. rewrite app_nil_r. auto. Qed.
Lemma prog_part k pr par sn ms l n v n' : ratio_is k pr par -> ni k pr par sn ms l n -> v <> ETake -> dlv v = [] ->
  (let* e := prog_step (n_est n) v in Ok (mkNode e (n_odom n) (n_pub n))) = n' ->
  match n' with
  | Ok n1 => exists l', exec (n_est n) [op_of (n_est n) v] (n_est n1) (pushed_states l') /\ ni k pr par sn ms (l ++ l') n1 /\ pushed_states (l ++ l') = pushed_states l ++ pushed_states l'
  | Fail er => er = Spin /\ exists lx, v = EIter lx /\ e_enabled (n_est n) = false /\ BiasInitialized (n_est n) = Ok true /\ ~ fed_all (e_corrs (n_est n)) lx
  end.
Proof.
  intros HR [H1 H2 H3 H4] NT DV <-. assert (op_imu (op_of (n_est n) v) = []) as OI by (rewrite op_of_imu; exact DV). destruct (op_of_step _ _ v H1) as [Es Ha].
  assert (est_ok (op_imu (op_of (n_est n) v) ++ imsgs ms) (n_est n)) as H1' by (rewrite OI; exact H1).
  destruct (step_safe _ _ _ H1' Ha) as [(e' & E & HE')|[E (lx & El & NF)]]; rewrite Es, E; cbn [bind].
  - rewrite E in Es. pose proof (out_grows _ _ _ _ H1' NT Es) as G. pose proof (waiting_pub _ _ HE') as W. rewrite G in W. apply Forall_app in W. destruct W as [_ W].
    destruct (push_many k pr par HR (pub1 (n_est n) e') l (seen n) H3) as [A B]; [apply Forall_app; auto|]. exists (map PPush (pub1 (n_est n) e')). cbn [n_est].
    assert (pushed_states (map PPush (pub1 (n_est n) e')) = pub1 (n_est n) e') as Q by (unfold pushed_states; induction (pub1 (n_est n) e') as [|s ss IH]; [reflexivity|]; cbn; f_equal; clear -ss; induction ss; cbn; congruence).
    rewrite Q. split; [apply exec_one; auto|]. split; [|exact B]. constructor; cbn [n_est n_odom n_pub]; auto.
    + unfold seen in *. cbn [n_pub n_est]. rewrite G. exact A.
    + rewrite B. apply Forall_app. auto.
  - split; [reflexivity|]. destruct v; cbn [op_of] in El; try discriminate. destruct (e_enabled (n_est n)) eqn:En; [discriminate|].
    destruct (BiasInitialized (n_est n)) as [[]|] eqn:Eb; try discriminate. injection El as ->. eauto.
Qed.
Lemma imus_op e v : dlv v = [] -> imus [op_of e v] = []. Proof. intros H. rewrite imus_cons. cbn. rewrite app_nil_r, op_of_imu. exact H. Qed.
Lemma vels_op e v : (match v with EVel _ _ => false | _ => true end) = true -> vels [op_of e v] = []. Proof. intros H. destruct v; try discriminate; try reflexivity. cbn. destruct (e_enabled e); [reflexivity|]. destruct (BiasInitialized e) as [[]|]; reflexivity. Qed.
Lemma legs_op e v : (match v with ELeg _ _ => false | _ => true end) = true -> legs [op_of e v] = []. Proof. intros H. destruct v; try discriminate; try reflexivity. cbn. destruct (e_enabled e); [reflexivity|]. destruct (BiasInitialized e) as [[]|]; reflexivity. Qed.
Definition ev_in (v : event) (w : nodev) : Prop := match v with EIter l => w = NIter l | EVel i _ | ELeg i _ => i = 0%nat | _ => True end.
Lemma made_op e v w : ev_in v w -> made_by [w] (op_of e v).
Proof. destruct v; cbn; auto. intros ->. destruct (e_enabled e); [left; reflexivity|]. destruct (BiasInitialized e) as [[]|]; cbn; auto. Qed.
Lemma made_more a b o : (forall x, In x a -> In x b) -> made_by a o -> made_by b o.
Proof. intros H. destruct o; cbn; auto. Qed.
Lemma made_clear vs os : Forall (made_by vs) os -> Forall (fun o => o <> OClear) os.
Proof. apply Forall_impl. intros o H ->. exact H. Qed.
Definition step_ok k pr par sn ms l n v (n' : res node) : Prop :=
  match n' with
  | Ok n1 => exists ops l', exec (n_est n) ops (n_est n1) (pushed_states l') /\ ni k pr par sn ms (l ++ l') n1 /\ pushed_states (l ++ l') = pushed_states l ++ pushed_states l' /\
      imus ops = imsgs (vmsg v) /\ reads (speed_for sn) (vmsg v) (vels ops) /\ reads (legs_for sn) (vmsg v) (legs ops) /\ Forall (made_by [v]) ops
  | Fail er => er = Spin /\ exists lx, v = NIter lx /\ e_enabled (n_est n) = false /\ BiasInitialized (n_est n) = Ok true /\ ~ fed_all (e_corrs (n_est n)) lx
  end.
Lemma reads_nil {A} (f : rosmsg -> list A -> Prop) : reads f [] []. Proof. exists []. split; [constructor|reflexivity]. Qed.
Lemma node_step_ok k pr par sn ms l n v : ratio_is k pr par -> sensor_ok sn -> Forall (message_ok sn) (vmsg v) -> ni k pr par sn (vmsg v ++ ms) l n -> step_ok k pr par sn ms l n v (node_step sn n v).
Proof.
  intros HR HS HM HN. destruct v as [m|lx| | | | |]; cbn [vmsg app] in *.
  - destruct HN as [H1 H2 H3 H4]. inversion HM as [|? ? HM1 _]; subst. destruct (callback_ok sn (n_odom n) m ms HS HM1 H2) as (o' & ops & E & H2' & HF & HI & HV & HL). cbn [node_step]. rewrite E. cbn [bind].
    assert (est_ok (imus ops ++ imsgs ms) (n_est n)) as H1' by (rewrite HI, <- imsgs_app; exact H1). destruct (push_exec ops _ _ HF H1') as (e' & X & K & O). pose proof X as X'. apply exec_iff in X'. destruct X' as (_ & R & _). rewrite R. cbn [bind].
    exists ops, []. cbn [n_est]. rewrite app_nil_r. split; [exact X|]. split; [|split; [cbn; rewrite app_nil_r; reflexivity|]].
    + constructor; cbn [n_est n_odom n_pub]; auto. unfold seen in *. cbn [n_pub n_est]. rewrite O. exact H3.
    + split; [exact HI|]. split; [exists [vels ops]; split; [repeat constructor; exact HV|cbn; rewrite app_nil_r; reflexivity]|split; [exists [legs ops]; split; [repeat constructor; exact HL|cbn; rewrite app_nil_r; reflexivity]|eapply Forall_impl; [|exact HF]; intros [] Ha; try exact I; try exact Ha; contradiction]].
  - cbn [node_step]. pose proof (prog_part k pr par sn ms l n (EIter lx) _ HR HN ltac:(discriminate) eq_refl eq_refl) as P. destruct (let* e := prog_step (n_est n) (EIter lx) in Ok (mkNode e (n_odom n) (n_pub n))) as [n1|er].
    + destruct P as (l' & X & N & Q). do 2 eexists. split; [exact X|]. split; [exact N|]. split; [exact Q|]. rewrite imus_op, vels_op, legs_op by reflexivity. split; [reflexivity|]. split; [apply reads_nil|]. split; [apply reads_nil|]. constructor; [apply made_op; cbn; auto|constructor].
    + destruct P as (-> & lx' & [= ->] & P). split; [reflexivity|]. exists lx'. auto.
  - cbn [node_step]. destruct (pub_only k pr par sn ms l n PCheck _ HR HN (or_introl eq_refl) eq_refl) as (n1 & -> & ops & X & Q & N). exists ops, [PCheck]. split; [exact X|]. split; [exact N|]. split; [rewrite pushed_snoc; reflexivity|]. subst ops. split; [reflexivity|]. split; [apply reads_nil|]. split; [apply reads_nil|constructor].
  - cbn [node_step]. destruct (pub_only k pr par sn ms l n PTake _ HR HN (or_intror (or_introl eq_refl)) eq_refl) as (n1 & -> & ops & X & Q & N). exists ops, [PTake]. split; [exact X|]. split; [exact N|]. split; [rewrite pushed_snoc; reflexivity|]. subst ops. destruct (pb_took (n_pub n)); (split; [reflexivity|]; split; [apply reads_nil|]; split; [apply reads_nil|repeat constructor]).
  - cbn [node_step]. destruct (pub_only k pr par sn ms l n PPath _ HR HN (or_intror (or_intror eq_refl)) eq_refl) as (n1 & -> & ops & X & Q & N). exists ops, [PPath]. split; [exact X|]. split; [exact N|]. split; [rewrite pushed_snoc; reflexivity|]. subst ops. split; [reflexivity|]. split; [apply reads_nil|]. split; [apply reads_nil|constructor].
  - cbn [node_step]. pose proof (prog_part k pr par sn ms l n ELogPop _ HR HN ltac:(discriminate) eq_refl eq_refl) as P. destruct (let* e := prog_step (n_est n) ELogPop in Ok (mkNode e (n_odom n) (n_pub n))) as [n1|er].
    + destruct P as (l' & X & N & Q). do 2 eexists. split; [exact X|]. split; [exact N|]. split; [exact Q|]. rewrite imus_op, vels_op, legs_op by reflexivity. split; [reflexivity|]. split; [apply reads_nil|]. split; [apply reads_nil|]. constructor; [apply made_op; cbn; auto|constructor].
    + destruct P as (_ & lx' & X & _). discriminate.
  - cbn [node_step]. pose proof (prog_part k pr par sn ms l n ELogWrite _ HR HN ltac:(discriminate) eq_refl eq_refl) as P. destruct (let* e := prog_step (n_est n) ELogWrite in Ok (mkNode e (n_odom n) (n_pub n))) as [n1|er].
    + destruct P as (l' & X & N & Q). do 2 eexists. split; [exact X|]. split; [exact N|]. split; [exact Q|]. rewrite imus_op, vels_op, legs_op by reflexivity. split; [reflexivity|]. split; [apply reads_nil|]. split; [apply reads_nil|]. constructor; [apply made_op; cbn; auto|constructor].
    + destruct P as (_ & lx' & X & _). discriminate.
Qed.
Lemma exec_app : forall a e r p b r' p', exec e a r p -> exec r b r' p' -> exec e (a ++ b) r' (p ++ p').
Proof.
  induction a as [|o a IH]; intros e r p b r' p' X Y.
  - destruct X as [-> ->]. exact Y.
  - cbn [exec app] in *. destruct X as (e1 & q & A & S & -> & X). exists e1, (q ++ p'). rewrite <- app_assoc. eauto 6.
Qed.
Lemma reads_app {A} (f : rosmsg -> list A -> Prop) a b x y : reads f a x -> reads f b y -> reads f (a ++ b) (x ++ y).
Proof. intros (r & H1 & ->) (r' & H2 & ->). exists (r ++ r'). split; [apply Forall2_app; auto|rewrite concat_app; reflexivity]. Qed.
Lemma messages_cons v vs : messages (v :: vs) = vmsg v ++ messages vs. Proof. reflexivity. Qed.
Lemma vels_app a b : vels (a ++ b) = vels a ++ vels b. Proof. apply flat_map_app. Qed.
Lemma legs_app a b : legs (a ++ b) = legs a ++ legs b. Proof. apply flat_map_app. Qed.
Lemma node_runs k pr par sn : ratio_is k pr par -> sensor_ok sn -> forall vs n l, Forall (message_ok sn) (messages vs) -> ni k pr par sn (messages vs) l n ->
  match foldM (node_step sn) n vs with
  | Ok n1 => exists ops l', exec (n_est n) ops (n_est n1) (pushed_states l') /\ ni k pr par sn [] (l ++ l') n1 /\ pushed_states (l ++ l') = pushed_states l ++ pushed_states l' /\
      imus ops = imsgs (messages vs) /\ reads (speed_for sn) (messages vs) (vels ops) /\ reads (legs_for sn) (messages vs) (legs ops) /\ Forall (made_by vs) ops
  | Fail er => er = Spin /\ exists pre lx post n1, vs = pre ++ NIter lx :: post /\ foldM (node_step sn) n pre = Ok n1 /\ e_enabled (n_est n1) = false /\ BiasInitialized (n_est n1) = Ok true /\ ~ fed_all (e_corrs (n_est n1)) lx
  end.
Proof.
  intros HR HS. induction vs as [|v vs IH]; intros n l HM HN; cbn [foldM].
  - exists [], []. rewrite app_nil_r. split; [split; reflexivity|]. split; [exact HN|]. split; [cbn; rewrite app_nil_r; reflexivity|]. split; [reflexivity|]. split; [apply reads_nil|]. split; [apply reads_nil|constructor].
  - rewrite messages_cons in *. apply Forall_app in HM. destruct HM as [HM1 HM2]. pose proof (node_step_ok k pr par sn (messages vs) l n v HR HS HM1 HN) as S. destruct (node_step sn n v) as [n1|er] eqn:ES; cbn [bind step_ok] in *.
    + destruct S as (ops & l1 & X & N & Q & I1 & V1 & L1 & C1). specialize (IH n1 (l ++ l1) HM2 N). destruct (foldM (node_step sn) n1 vs) as [n2|er].
      * destruct IH as (ops2 & l2 & X2 & N2 & Q2 & I2 & V2 & L2 & C2). exists (ops ++ ops2), (l1 ++ l2). rewrite app_assoc. 
        assert (pushed_states (l1 ++ l2) = pushed_states l1 ++ pushed_states l2) as PA by (unfold pushed_states; apply flat_map_app). rewrite PA.
        split; [eapply exec_app; eauto|]. split; [exact N2|]. split; [rewrite Q2, Q, app_assoc; reflexivity|]. split; [rewrite imus_app, imsgs_app, I1, I2; reflexivity|].
        rewrite vels_app, legs_app. split; [apply reads_app; auto|]. split; [apply reads_app; auto|apply Forall_app; split; (eapply Forall_impl; [|eassumption]); intros o; apply made_more; cbn; tauto].
      * destruct IH as (-> & pre & lx & post & n2 & -> & R & P). split; [reflexivity|]. exists (v :: pre), lx, post, n2. split; [reflexivity|]. split; [|exact P].
        cbn [foldM]. rewrite ES. exact R.
    + destruct S as (-> & lx & -> & P). split; [reflexivity|]. exists [], lx, vs, n. auto.
Qed.

(** ** counting: an execution without clear as a run of the loop *)
Lemma exec_loop : forall os e r pub, est_ok (imus os) e -> Forall (fun o => o <> OClear) os -> exec e os r pub ->
  exists evs, prog_run e evs = Ok r /\ samples evs = imus os /\ (yield waiting_sample e evs <= length pub)%nat.
Proof.
  induction os as [|o os IH]; intros e r pub HE HC X.
  - destruct X as [-> ->]. exists []. cbn. auto.
  - cbn [exec] in X. destruct X as (e1 & pub' & A & S & -> & X). inversion HC as [|? ? C1 C2]; subst. rewrite imus_cons in HE.
    assert (est_ok (imus os) e1) as K1. { destruct (step_safe _ _ _ HE A) as [(x & Sx & Hx)|(X1 & _)]; [|congruence]. assert (x = e1) as <- by congruence. exact Hx. }
    destruct (IH e1 r pub' K1 C2 X) as (evs & R & Sm & Y).
    assert (exists v, op_of e v = o) as (v & Ev).
    { destruct o; cbn [allowed] in A; try (exfalso; apply C1; reflexivity).
      - exists (EImu m); reflexivity.
      - exists (EVel i m); reflexivity.
      - exists (ELeg i m); reflexivity.
      - exists (EIter []). cbn. destruct A as [-> ->]. reflexivity.
      - exists (EIter l). cbn. destruct A as [-> ->]. reflexivity.
      - exists (EIter l). cbn. rewrite A. reflexivity.
      - exists ETake; reflexivity.
      - exists ELogPop; reflexivity.
      - exists ELogWrite; reflexivity. }
    destruct (op_of_step _ _ v HE) as [Es _]. rewrite Ev, S in Es. exists (v :: evs). unfold prog_run in *. cbn [foldM yield]. rewrite Es. cbn [bind]. split; [exact R|].
    split; [rewrite samples_cons, imus_cons, Sm, <- Ev, op_of_imu; reflexivity|]. rewrite app_length.
    assert ((match v with EIter _ => if waiting_sample e then length (e_out e1) - length (e_out e) else 0 | _ => 0 end <= length (pub1 e e1))%nat); [|lia].
    unfold pub1. rewrite skipn_length. destruct v; try lia. destruct (waiting_sample e); lia.
Qed.

(** ** from the start *)
Lemma imsgs_for ms : Forall2 sample_for (imu_messages ms) (imsgs ms).
Proof. unfold imsgs. induction (imu_messages ms) as [|m l IH]; cbn; constructor; auto using sof_for. Qed.
Lemma imsgs_stream sn ms : messages_ok sn ms -> imu_stream (imsgs ms).
Proof.
  intros (HM & HS & _). split.
  - apply Forall_forall. intros x Hx. apply in_map_iff in Hx. destruct Hx as (m & <- & Hm). unfold imu_messages in Hm. apply in_flat_map in Hm. destruct Hm as (r & Hr & Hm). destruct r; cbn in Hm; try contradiction. destruct Hm as [->|[]].
    rewrite Forall_forall in HM. specialize (HM _ Hr). cbn [message_ok] in HM. unfold sof. cbn [i_q]. destruct (Req_EM_T (quat_norm (im_q m)) 0) as [E|E]; [unfold qnorm2; cbn; ring|].
    destruct HM as [HM|HM]; [exfalso; apply E, quat_norm_0, HM|exact HM].
  - unfold imsgs. rewrite map_map. exact HS.
Qed.
Lemma start_ni k P ms : program_ok k P -> messages_ok (np_sensor P) ms -> ni k (np_pose_rate P) (np_path_rate P) (np_sensor P) ms [] (node_start P).
Proof.
  intros (HC & HR & HS) HM. constructor.
  - apply build_ok; [exact HC|eapply imsgs_stream; exact HM].
  - unfold odom_inv, node_start. cbn [n_odom]. destruct (np_sensor P) as [| | | |t q|]; try exact I. cbn in HS. split; [apply thm_quat_unit; exact HS|]. split; [reflexivity|]. split; [reflexivity|]. left. split; [reflexivity|]. apply HM.
  - assert (seen (node_start P) = ROSPublisher [] (np_pose_rate P) (np_path_rate P)) as ->. { unfold seen, node_start. cbn [n_pub n_est]. rewrite build_eq. reflexivity. }
    destruct (pub_run_inv k _ _ [] HR) as (p & E & I); [intros []|constructor|]. cbn in E. injection E as <-. exact I.
  - constructor.
Qed.
Lemma run_start k P vs : program_ok k P -> messages_ok (np_sensor P) (messages vs) ->
  match node_run P vs with
  | Ok n => exists ops l, exec (build (np_est P)) ops (n_est n) (pushed_states l) /\ ni k (np_pose_rate P) (np_path_rate P) (np_sensor P) [] l n /\
      imus ops = imsgs (messages vs) /\ reads (speed_for (np_sensor P)) (messages vs) (vels ops) /\ reads (legs_for (np_sensor P)) (messages vs) (legs ops) /\ Forall (made_by vs) ops
  | Fail er => er = Spin /\ exists pre l post n1, vs = pre ++ NIter l :: post /\ node_run P pre = Ok n1 /\
      e_enabled (n_est n1) = false /\ BiasInitialized (n_est n1) = Ok true /\ ~ fed_all (e_corrs (n_est n1)) l
  end.
Proof.
  intros HP HM. pose proof HP as (_ & HR & HS). pose proof (node_runs k _ _ (np_sensor P) HR HS vs (node_start P) [] (proj1 HM) (start_ni k P _ HP HM)) as H.
  unfold node_run. destruct (foldM _ _ vs) as [n|er]; [|exact H]. destruct H as (ops & l & X & N & _ & H). exists ops, l. split; [exact X|]. split; [exact N|]. exact H.
Qed.
Lemma thm_node k P vs : program_ok k P -> messages_ok (np_sensor P) (messages vs) ->
  match node_run P vs with
  | Ok n => exists os ss, reachable (np_est P) os (n_est n) /\ Forall2 sample_for (imu_messages (messages vs)) (imus os) /\
      reads (speed_for (np_sensor P)) (messages vs) (vels os) /\ reads (legs_for (np_sensor P)) (messages vs) (legs os) /\
      Forall (made_by vs) os /\ published any_op (build (np_est P)) os = ss ++ e_out (n_est n) /\ all_say ss (pb_sent (n_pub n))
  | Fail er => er = Spin /\ exists pre l post n1, vs = pre ++ NIter l :: post /\ node_run P pre = Ok n1 /\
      e_enabled (n_est n1) = false /\ BiasInitialized (n_est n1) = Ok true /\ ~ fed_all (e_corrs (n_est n1)) l
  end.
Proof.
  intros HP HM. pose proof (run_start k P vs HP HM) as H. destruct (node_run P vs) as [n|er]; [|exact H]. destruct H as (os & l & X & N & HI & HV & HL & HB). apply exec_iff in X. destruct X as (X1 & X2 & X3).
  destruct (ni_pub _ _ _ _ _ _ _ N) as (ss & _ & _ & _ & A & S & _). rewrite seen_q in A. exists os, ss. split; [split; [apply HP|split; [rewrite HI; eapply imsgs_stream; exact HM|auto]]|].
  split; [rewrite HI; apply imsgs_for|]. split; [exact HV|]. split; [exact HL|]. split; [exact HB|]. split; [rewrite X3; exact A|exact S].
Qed.
Lemma thm_node_progress k P vs n : program_ok k P -> messages_ok (np_sensor P) (messages vs) -> node_run P vs = Ok n ->
  exists taken, Forall2 sample_for (imu_messages (messages vs)) (taken ++ imu_queue (n_est n)) /\ (length taken <= window (np_est P) + length (pb_sent (n_pub n)) + length (e_out (n_est n)))%nat /\
    (e_enabled (n_est n) = true <-> (window (np_est P) < length taken)%nat).
Proof.
  intros HP HM HR. pose proof (run_start k P vs HP HM) as H. rewrite HR in H. destruct H as (os & l & X & N & HI & _ & _ & NC).
  assert (est_ok (imus os) (build (np_est P))) as K0 by (apply build_ok; [exact (proj1 HP)|rewrite HI; eapply imsgs_stream; exact HM]).
  destruct (exec_loop os _ _ _ K0 (made_clear _ _ NC) X) as (evs & R & Sm & Y).
  destruct (thm_one_per_sample (np_est P) evs (n_est n) (proj1 HP)) as (tk & Q & Yn & _ & En); [rewrite Sm, HI; eapply imsgs_stream; exact HM|exact R|].
  exists tk. rewrite <- Q, Sm, HI. split; [apply imsgs_for|]. split; [|exact En]. destruct (ni_pub _ _ _ _ _ _ _ N) as (ss & _ & _ & _ & A & [SL _] & _). rewrite seen_q in A. rewrite A, app_length in Y. change (pb_sent (seen n)) with (pb_sent (n_pub n)) in SL. lia.
Qed.
Lemma messages_app a b : messages (a ++ b) = messages a ++ messages b. Proof. apply flat_map_app. Qed.
(** one pass of the pose thread *)
Lemma thm_node_pass k P vs n s q : program_ok k P -> messages_ok (np_sensor P) (messages vs) -> node_run P vs = Ok n -> e_out (n_est n) = s :: q ->
  exists n' m, node_run P (vs ++ [NCheck; NTake]) = Ok n' /\ e_out (n_est n') = q /\ pb_sent (n_pub n') = pb_sent (n_pub n) ++ [m] /\ says (length (pb_sent (n_pub n))) s m.
Proof.
  intros HP HM HR HO. pose proof (thm_node k P (vs ++ [NCheck; NTake]) HP) as H. rewrite messages_app in H. cbn [messages flat_map] in H. rewrite app_nil_r in H. specialize (H HM).
  pose proof (run_start k P vs HP HM) as R0. rewrite HR in R0. destruct R0 as (os & l & X & N & _).
  destruct HP as (HC & HRt & HS). destruct (pub_only k _ _ _ _ l n PCheck _ HRt N (or_introl eq_refl) eq_refl) as (n1 & E1 & ops1 & X1 & Q1 & N1). subst ops1. destruct X1 as [X1 _].
  pose proof N1 as [_ _ P1 G1]. assert (pb_took (n_pub n1) = true /\ pb_sent (n_pub n1) = pb_sent (n_pub n)) as [TK SE].
  { assert (n_pub n1 = if pb_took (seen n) then seen n else PoseCheck (seen n)) as -> by (cbn [pub_step bind] in E1; injection E1 as <-; reflexivity). destruct (pb_took (seen n)) eqn:T; [auto|]. unfold PoseCheck. cbn. rewrite HO. auto. }
  destruct P1 as (ss & F & R1 & R2 & A & S & C & NN & T & PP). assert (e_out (n_est n1) = s :: q) as HO1 by (rewrite X1; exact HO). rewrite seen_q in A.
  assert (publishable s) as PS. { rewrite A, HO1 in G1. apply Forall_app in G1. destruct G1 as [_ G1]. inversion G1; assumption. }
  destruct (PoseTake_eq k (seen n1) s q) with (n := length ss) as (t & ET & E); auto; [rewrite R1, R2; exact HRt|].
  destruct (pub_facts s PS) as (t' & _ & ET' & _ & _ & SR & _).
  do 2 eexists. split.
  { unfold node_run in *. rewrite foldM_app, HR. cbn [bind foldM node_step]. rewrite E1. cbn [bind]. cbn [pub_step]. rewrite E. cbn [bind]. reflexivity. }
  cbn [n_est n_pub pb_q pb_sent e_out e_set_out e_set]. split; [reflexivity|]. change (pb_sent (seen n1)) with (pb_sent (n_pub n1)) in *. rewrite SE in *. split; [reflexivity|].
  destruct S as [SL _]. rewrite SL. split; [reflexivity|]. split; [exact ET|]. split; [reflexivity|]. apply QuatThms.thm_quat_of_mat. exact SR.
Qed.
Lemma thm_node_path k P vs n : program_ok k P -> messages_ok (np_sensor P) (messages vs) -> node_run P vs = Ok n -> (Z.of_nat (length (pb_sent (n_pub n))) < 2147483648)%Z ->
  pb_poses (n_pub n) = map in_path (every k (pb_sent (n_pub n))) /\ Forall (path_ok k (pb_sent (n_pub n))) (pb_paths (n_pub n)).
Proof.
  intros HP HM HR HL. pose proof (run_start k P vs HP HM) as R0. rewrite HR in R0. destruct R0 as (os & l & X & N & _). destruct (ni_pub _ _ _ _ _ _ _ N) as (ss & _ & _ & _ & A & [SL _] & _ & _ & _ & PP). apply PP. change (pb_sent (seen n)) with (pb_sent (n_pub n)) in SL. lia.
Qed.
Lemma ratio_10 : ratio_is 10 1000 100.
Proof. unfold ratio_is. replace (1000 / 100) with 10 by field. cbn [INR]. repeat split; try lra; lia. Qed.
Lemma thm_nodes_ok : Forall (fun P => program_ok 10 P /\ wired P) nodes.
Proof.
  pose proof (proj1 (Forall_forall _ _) thm_shipped_ok) as H. repeat apply Forall_cons; try apply Forall_nil; (split; [|exact I]; split; [apply H; cbn; tauto|]; split; [exact ratio_10|]); cbn; try exact I. unfold qnorm2. cbn. ring.
Qed.
