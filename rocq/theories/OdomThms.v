(** Proofs about the wheel odometry. *)
From Coq Require Import Reals ZArith List Bool Arith Lia Lra.
From Verif Require Import Res Vec3 Mat Spec LieGroup LieSO3 LieThms RobotState SpecFilter SpecProp Imu VelCorr ImuFilter Quat Estimator WheelOdom SpecOdom.
Import ListNotations.
Local Open Scope R_scope.

(** the state of the odometry: five columns, top three rows meaningful *)
Definition top (X : mat) : Prop := nr X = 5%nat /\ nc X = 5%nat.
Lemma Integrate_eq s v w dt t : top (sX s) -> st s = Some t -> exists E s', Exp_SO3 (dt *s w) = Ok E /\ Integrate s v w dt = Ok s' /\
  top (sX s') /\ stype s' = stype s /\ st s' = Some (t + dt) /\ getM3 (sX s') 0 0 = getM3 (sX s) 0 0 *m E /\ getV3 (sX s') 0 3 = getM3 (sX s) 0 0 *v v /\
  getV3 (sX s') 0 4 = getV3 (sX s) 0 4 +v dt *s (getM3 (sX s) 0 0 *v v) /\ (forall i j, (3 <= i < 5)%nat -> (j < 5)%nat -> ent (sX s') i j = 1).
Proof.
  intros [N1 N2] T. destruct (thm_exp_rotation (dt *s w)) as (E & HE & SE & _ & _). unfold Integrate, get_rotation, get_velocity, get_position.
  rewrite cgetM3_ok by (rewrite ?N1, ?N2; lia). cbn [bind]. rewrite !cgetV3_ok by (rewrite ?N1, ?N2; lia). cbn [bind]. unfold Exp_SO3 in HE. rewrite HE. cbn [bind].
  rewrite cput_ok by (rewrite ?nr_mk, ?nc_mk; unfold ofM3, ofV3; rewrite ?nr_mk, ?nc_mk; lia). cbn [bind]. rewrite cput_ok by (rewrite ?nr_put, ?nc_put, ?nr_mk, ?nc_mk; unfold ofM3, ofV3; rewrite ?nr_mk, ?nc_mk; lia). cbn [bind]. rewrite cput_ok by (rewrite ?nr_put, ?nc_put, ?nr_mk, ?nc_mk; unfold ofM3, ofV3; rewrite ?nr_mk, ?nc_mk; lia). cbn [bind].
  unfold get_time. cbn [set_X st]. rewrite T. cbn [of_opt bind].
  exists E. set (A := getM3 (sX s) 0 0). set (p := getV3 (sX s) 0 4). generalize (A *m E) (A *v v) (p +v dt *s (A *v v)). intros B u z.
  eexists. split; [exact HE|]. split; [reflexivity|]. cbn [set_time set_X sX st stype]. split; [split; reflexivity|]. split; [reflexivity|]. split; [reflexivity|].
  assert (forall i j, (i < 5)%nat -> (j < 5)%nat -> ent (put (put (put (mk 5 5 (fun _ _ => 1)) 0 0 (ofM3 B)) 0 3 (ofV3 u)) 0 4 (ofV3 z)) i j =
    if Nat.ltb i 3 then (if Nat.ltb j 3 then mget B i j else if Nat.eqb j 3 then vget u i else vget z i) else 1) as Q.
  { intros i j Hi Hj. rewrite !ent_put by (rewrite ?nr_put, ?nc_put, ?nr_mk, ?nc_mk; unfold ofM3, ofV3; rewrite ?nr_mk, ?nc_mk; lia). change (nr (ofM3 B)) with 3%nat. change (nc (ofM3 B)) with 3%nat. change (nr (ofV3 u)) with 3%nat. change (nc (ofV3 u)) with 1%nat. change (nr (ofV3 z)) with 3%nat. change (nc (ofV3 z)) with 1%nat.
    destruct i as [|[|[|[|[|i]]]]]; try lia; destruct j as [|[|[|[|[|j]]]]]; try lia; cbn [inwin Nat.leb Nat.ltb Nat.eqb Nat.add Nat.sub andb]; rewrite ?ent_ofM3, ?ent_ofV3, ?ent_mk by lia; reflexivity. }
  split; [|split; [|split]].
  - unfold getM3, mmk. rewrite !Q by lia. destruct B. reflexivity.
  - unfold getV3, vmk. rewrite !Q by lia. destruct u. reflexivity.
  - unfold getV3, vmk. rewrite !Q by lia. destruct z. reflexivity.
  - intros i j Hi Hj. rewrite Q by lia. destruct (Nat.ltb_spec i 3); [lia|reflexivity].
Qed.
Lemma LogPose_eq o t : top (sX (wo_s o)) -> st (wo_s o) = Some t -> exists o', LogPose o = Ok o' /\ wo_s o' = wo_s o /\ wo_prev o' = wo_prev o /\ wo_vq o' = wo_vq o /\ wo_aq o' = wo_aq o /\ wo_logger o' = wo_logger o /\ wo_rate o' = wo_rate o /\
  ((wo_lines o' = wo_lines o /\ wo_last o' = wo_last o /\ (wo_logger o = true -> wo_rate o = 0 \/ ~ 1 / wo_rate o <= t - wo_last o)) \/
   (exists A p, get_world_rotation (wo_s o) = Ok A /\ get_world_position (wo_s o) = Ok p /\ wo_logger o = true /\ wo_rate o <> 0 /\ 1 / wo_rate o <= t - wo_last o /\ wo_last o' = t /\ wo_lines o' = wo_lines o ++ [(t, p, quat_of_mat A)])).
Proof.
  intros [N1 N2] T. unfold LogPose, get_time. rewrite T. cbn [of_opt bind].
  destruct (wo_logger o) eqn:L; cbn [andb]; [|exists o; repeat split; auto; left; repeat split; congruence].
  unfold log_due. destruct (Req_EM_T (wo_rate o) 0); [exists o; repeat split; auto|]. destruct (Rle_dec (1 / wo_rate o) (t - wo_last o)); [|exists o; repeat split; auto].
  assert (exists A, get_world_rotation (wo_s o) = Ok A) as (A & HA).
  { unfold get_world_rotation, get_rotation. rewrite cgetM3_ok by (rewrite ?N1, ?N2; lia). cbn [bind]. destruct (stype _); eauto. }
  assert (exists A, get_world_position (wo_s o) = Ok A) as (p & Hp).
  { unfold get_world_position, get_position, get_rotation. rewrite cgetV3_ok by (rewrite ?N1, ?N2; lia). cbn [bind]. destruct (stype _); eauto. rewrite cgetM3_ok by (rewrite ?N1, ?N2; lia). cbn [bind]. eauto. }
  rewrite HA, Hp. cbn [bind]. eexists. split; [reflexivity|]. cbn. repeat split. right. exists A, p. repeat split; auto.
Qed.
(** invariant *)
Definition wo_inv (l : list wop) (o : odom) : Prop := exists ps,
  pushed_v l = map fst ps ++ wo_vq o /\ pushed_a l = map snd ps ++ wo_aq o /\ top (sX (wo_s o)) /\ stype (wo_s o) = WorldCentric /\
  ((ps = [] /\ wo_prev o = 0 /\ sX (wo_s o) = meye 5) \/
   (wo_prev o <> 0 /\ st (wo_s o) = Some (wo_prev o) /\ dead_reckoning ps (wo_prev o) (getM3 (sX (wo_s o)) 0 0) (getV3 (sX (wo_s o)) 0 3) (getV3 (sX (wo_s o)) 0 4))).
Lemma meye5 : getM3 (meye 5) 0 0 = mid /\ getV3 (meye 5) 0 3 = vzero /\ getV3 (meye 5) 0 4 = vzero.
Proof. unfold getM3, mmk, getV3, vmk. rewrite !ent_eye by lia. repeat split. Qed.
Lemma pushed_v_app l x : pushed_v (l ++ [x]) = pushed_v l ++ match x with WVel m => [m] | _ => [] end.
Proof. unfold pushed_v. rewrite flat_map_app. cbn. rewrite app_nil_r. reflexivity. Qed.
Lemma pushed_a_app l x : pushed_a (l ++ [x]) = pushed_a l ++ match x with WAng a => [a] | _ => [] end.
Proof. unfold pushed_a. rewrite flat_map_app. cbn. rewrite app_nil_r. reflexivity. Qed.
Lemma step_inv l o x : wo_inv l o -> (forall m, In m (wo_vq o) -> vm_t m <> 0) -> exists o', wo_step o x = Ok o' /\ wo_inv (l ++ [x]) o'.
Proof.
  intros (ps & V & A & T & W & H) NZ. destruct x as [m|a|]; cbn [wo_step].
  - eexists. split; [reflexivity|]. exists ps. rewrite pushed_v_app, pushed_a_app, V, A. cbn. rewrite app_nil_r, app_assoc. repeat split; auto; apply T.
  - eexists. split; [reflexivity|]. exists ps. rewrite pushed_v_app, pushed_a_app, V, A. cbn. rewrite app_nil_r, app_assoc. repeat split; auto; apply T.
  - unfold WO_RunOnce. destruct (wo_vq o) as [|m vq] eqn:Ev; [exists o; split; [reflexivity|]; exists ps; rewrite pushed_v_app, pushed_a_app, !app_nil_r, Ev; auto|].
    destruct (wo_aq o) as [|a aq] eqn:Ea; [exists o; split; [reflexivity|]; exists ps; rewrite pushed_v_app, pushed_a_app, !app_nil_r, Ev, Ea; auto|].
    cbn [wo_set_queues wo_prev wo_s]. assert (vm_t m <> 0) as NZm by (apply NZ; left; reflexivity). destruct H as [(-> & P0 & X0)|(P0 & T0 & D)].
    + destruct (Req_EM_T (wo_prev o) 0); [|contradiction]. eexists. split; [reflexivity|]. exists [(m, a)]. rewrite pushed_v_app, pushed_a_app, V, A, !app_nil_r. cbn. split; [reflexivity|]. split; [reflexivity|]. split; [exact T|]. split; [exact W|].
      right. split; [exact NZm|]. split; [reflexivity|]. rewrite X0. destruct meye5 as (-> & -> & ->). apply DR_first.
    + destruct (Req_EM_T (wo_prev o) 0); [contradiction|]. destruct (Integrate_eq (wo_s o) (vm_v m) (av_w a) (vm_t m - wo_prev o) _ T T0) as (E & s' & HE & HI & T' & W' & TT & R1 & R2 & R3 & _).
      rewrite HI. cbn [bind]. replace (wo_prev o + (vm_t m - wo_prev o)) with (vm_t m) in TT by ring.
      destruct (LogPose_eq (wo_set_state (wo_set_queues o vq aq) s' (vm_t m)) (vm_t m) T' TT) as (o' & -> & E1 & E2 & E3 & E4 & _). cbn in E1, E2, E3, E4. exists o'. split; [reflexivity|].
      exists (ps ++ [(m, a)]). rewrite pushed_v_app, pushed_a_app, V, A, E1, E2, E3, E4, !map_app, !app_nil_r. cbn. rewrite <- !app_assoc. split; [reflexivity|]. split; [reflexivity|]. split; [exact T'|]. split; [congruence|].
      right. split; [exact NZm|]. split; [exact TT|]. rewrite R1, R2, R3. eapply DR_next; eauto.
Qed.
Lemma dr_SO3 ps t A v p : dead_reckoning ps t A v p -> SO3 A.
Proof.
  induction 1; [apply SO3_id|]. apply SO3_mul; auto. destruct (thm_exp_rotation ((vm_t m - t) *s av_w a)) as (E' & HE & S & _). congruence.
Qed.
Lemma run_inv b r l : (forall m, In m (pushed_v l) -> vm_t m <> 0) -> exists o, wo_run (WheelOdometry [] [] b r) l = Ok o /\ wo_inv l o.
Proof.
  induction l as [|x l IH] using rev_ind; intros NZ.
  - eexists. split; [reflexivity|]. exists []. cbn. repeat split; auto.
  - destruct IH as (o & E & I); [intros m Hm; apply NZ; rewrite pushed_v_app; apply in_app_iff; auto|].
    unfold wo_run in *. rewrite foldM_app, E. cbn [bind foldM]. destruct (step_inv l o x I) as (o' & E' & I').
    + intros m Hm. apply NZ. rewrite pushed_v_app. apply in_app_iff. left. destruct I as (ps & V & _). rewrite V. apply in_app_iff. auto.
    + rewrite E'. exists o'. split; [reflexivity|exact I'].
Qed.

Lemma thm_odometry b r l : (forall m, In m (pushed_v l) -> vm_t m <> 0) -> exists o ps, wo_run (WheelOdometry [] [] b r) l = Ok o /\
  pushed_v l = map fst ps ++ wo_vq o /\ pushed_a l = map snd ps ++ wo_aq o /\
  (ps <> [] -> exists t A v p, dead_reckoning ps t A v p /\ SO3 A /\ get_time (wo_s o) = Ok t /\ get_world_rotation (wo_s o) = Ok A /\ get_world_velocity (wo_s o) = Ok v /\ get_world_position (wo_s o) = Ok p).
Proof.
  intros NZ. destruct (run_inv b r l NZ) as (o & E & ps & V & A & [N1 N2] & W & H). exists o, ps. split; [exact E|]. split; [exact V|]. split; [exact A|]. intros NE.
  destruct H as [(-> & _)|(_ & T & D)]; [contradiction|]. do 4 eexists. split; [exact D|]. split; [exact (dr_SO3 _ _ _ _ _ D)|].
  unfold get_time, get_world_rotation, get_world_velocity, get_world_position, get_rotation, get_velocity, get_position. rewrite T, W.
  rewrite cgetM3_ok, !cgetV3_ok by (rewrite ?N1, ?N2; lia). repeat split.
Qed.
(** RunOnce takes one sample from each queue exactly when both have one *)
Lemma thm_odometry_step b r l o o' : (forall m, In m (pushed_v l) -> vm_t m <> 0) -> wo_run (WheelOdometry [] [] b r) l = Ok o -> WO_RunOnce o = Ok o' ->
  (wo_vq o = [] \/ wo_aq o = [] -> o' = o) /\ (forall m vq a aq, wo_vq o = m :: vq -> wo_aq o = a :: aq -> wo_vq o' = vq /\ wo_aq o' = aq).
Proof.
  intros NZ E H. destruct (run_inv b r l NZ) as (o1 & E1 & ps & V & A & T & W & D). rewrite E in E1. injection E1 as <-. split.
  - intros [Q|Q]; unfold WO_RunOnce in H; rewrite Q in H; [congruence|]. destruct (wo_vq o); congruence.
  - intros m vq a aq Q1 Q2. unfold WO_RunOnce in H. rewrite Q1, Q2 in H. cbn [wo_set_queues wo_prev wo_s] in H. destruct (Req_EM_T (wo_prev o) 0).
    + injection H as <-. split; reflexivity.
    + destruct D as [(_ & P0 & _)|(_ & T0 & _)]; [contradiction|]. destruct (Integrate_eq (wo_s o) (vm_v m) (av_w a) (vm_t m - wo_prev o) _ T T0) as (F & s' & _ & HI & T' & _ & TT & _).
      rewrite HI in H. cbn [bind] in H. destruct (LogPose_eq (wo_set_state (wo_set_queues o vq aq) s' (vm_t m)) _ T' TT) as (o2 & E2 & _ & _ & E3 & E4 & _). rewrite E2 in H. injection H as <-. auto.
Qed.
(** the stored matrix is never in the group once a sample has been integrated *)
Lemma wo_inv_ones b r l o : (forall m, In m (pushed_v l) -> vm_t m <> 0) -> wo_run (WheelOdometry [] [] b r) l = Ok o ->
  sX (wo_s o) = meye 5 \/ ent (sX (wo_s o)) 3 0 = 1.
Proof.
  revert o. induction l as [|x l IH] using rev_ind; intros o NZ E.
  - injection E as <-. left. reflexivity.
  - assert (forall m, In m (pushed_v l) -> vm_t m <> 0) as NZ' by (intros m Hm; apply NZ; rewrite pushed_v_app; apply in_app_iff; auto).
    destruct (run_inv b r l NZ') as (o1 & E1 & ps & V & A & T & W & D). unfold wo_run in *. rewrite foldM_app, E1 in E. cbn [bind foldM] in E. specialize (IH o1 NZ' E1).
    destruct x as [m|a|]; cbn [wo_step bind] in E; try (injection E as <-; exact IH).
    unfold WO_RunOnce in E. destruct (wo_vq o1) as [|m vq]; [injection E as <-; exact IH|]. destruct (wo_aq o1) as [|a aq]; [injection E as <-; exact IH|].
    cbn [wo_set_queues wo_prev wo_s] in E. destruct (Req_EM_T (wo_prev o1) 0); [cbn [bind] in E; injection E as <-; exact IH|].
    destruct D as [(_ & P0 & _)|(_ & T0 & _)]; [contradiction|]. destruct (Integrate_eq (wo_s o1) (vm_v m) (av_w a) (vm_t m - wo_prev o1) _ T T0) as (F & s' & _ & HI & T' & _ & TT & _ & _ & _ & O).
    rewrite HI in E. cbn [bind] in E. destruct (LogPose_eq (wo_set_state (wo_set_queues o1 vq aq) s' (vm_t m)) _ T' TT) as (o2 & E2 & E3 & _). rewrite E2 in E. cbn [bind] in E. injection E as <-. right. rewrite E3. apply O; lia.
Qed.
Lemma thm_matrix_refuted : forall s v w dt s', nr (sX s) = 5%nat -> nc (sX s) = 5%nat -> Integrate s v w dt = Ok s' -> ~ SEK 2 (sX s').
Proof.
  intros s v w dt s' N1 N2 H S. destruct (st s) as [t|] eqn:T.
  - destruct (Integrate_eq s v w dt t (conj N1 N2) T) as (F & s1 & _ & HI & _ & _ & _ & _ & _ & _ & O). rewrite HI in H. injection H as <-. pose proof (O 3%nat 0%nat ltac:(lia) ltac:(lia)) as Q.
    destruct S as [S1 S2 S3 S4]. rewrite S4 in Q by lia. cbn in Q. lra.
  - unfold Integrate, get_rotation, get_velocity, get_position in H. rewrite cgetM3_ok in H by (rewrite ?N1, ?N2; lia). cbn [bind] in H. rewrite !cgetV3_ok in H by (rewrite ?N1, ?N2; lia). cbn [bind] in H.
    destruct (Gamma_SO3 _ _); [|discriminate]. cbn [bind] in H. repeat (rewrite cput_ok in H by (rewrite ?nr_put, ?nc_put, ?nr_mk, ?nc_mk; unfold ofM3, ofV3; rewrite ?nr_mk, ?nc_mk; lia); cbn [bind] in H).
    unfold get_time in H. cbn [set_X st] in H. rewrite T in H. discriminate.
Qed.
