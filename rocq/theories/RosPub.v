(** The publisher: conservation, message contents, path decimation. *)
From Coq Require Import Reals ZArith List Bool Arith Lia Lra.
From Verif Require Import Res Vec3 Mat MatInv Psd Spec LieGroup LieSO3 LieSEK RobotState StateProofs SpecFilter InekfProofs SpecProp Imu Propagation VelCorr LegCorr ImuFilter Quat QuatThms Kinematics Ros SpecRos.
Import ListNotations.
Local Open Scope R_scope.

Lemma every_from_snoc {A} n k (l : list A) x : every_from n k (l ++ [x]) = every_from n k l ++ (if Nat.eqb (S (n + length l) mod k) 0 then [x] else []).
Proof.
  revert n. induction l as [|y l IH]; intros n; cbn [app every_from length].
  - rewrite app_nil_r, Nat.add_0_r. reflexivity.
  - rewrite IH, <- app_assoc. replace (S (n + S (length l))) with (S (S n + length l)) by lia. reflexivity.
Qed.
Lemma every_snoc {A} k (l : list A) x : every k (l ++ [x]) = every k l ++ (if Nat.eqb (S (length l) mod k) 0 then [x] else []).
Proof. exact (every_from_snoc 0 k l x). Qed.
Lemma all_say_snoc ss ms s m : all_say ss ms -> says (length ss) s m -> all_say (ss ++ [s]) (ms ++ [m]).
Proof.
  intros [L H] S. split; [rewrite !app_length; cbn; lia|]. intros n s0 m0 H1 H2. destruct (Nat.lt_ge_cases n (length ss)).
  - rewrite nth_error_app1 in H1, H2 by lia. eauto.
  - rewrite nth_error_app2 in H1, H2 by lia. rewrite L in H2. destruct (n - length ss)%nat as [|k] eqn:E; [|destruct k; discriminate]. cbn in H1, H2. injection H1 as <-. injection H2 as <-. replace n with (length ss) by lia. exact S.
Qed.
Lemma cov36_gen P l acc : (forall k, In k l -> (k / 6 < nr P)%nat /\ (k mod 6 < nc P)%nat) ->
  foldM (fun acc k => let i := Nat.div k 6 in let j := Nat.modulo k 6 in if (Nat.ltb i (nr P) && Nat.ltb j (nc P))%bool then Ok (acc ++ [ent P i j]) else Fail EigenAssert) acc l
  = Ok (acc ++ map (fun k => ent P (k / 6) (k mod 6)) l).
Proof.
  revert acc. induction l as [|k l IH]; intros acc H; cbn [foldM map]; [rewrite app_nil_r; reflexivity|].
  destruct (H k (or_introl eq_refl)) as [H1 H2]. apply Nat.ltb_lt in H1, H2. cbv zeta. rewrite H1, H2. cbn [andb bind]. rewrite IH by (intros; apply H; right; assumption). rewrite <- app_assoc. reflexivity.
Qed.
Lemma cov36_ok P : (6 <= nr P)%nat -> (6 <= nc P)%nat -> cov36 P = Ok (map (fun k => ent P (k / 6) (k mod 6)) (seq 0 36)).
Proof.
  intros H1 H2. unfold cov36. rewrite cov36_gen; [reflexivity|]. intros k Hk. apply in_seq in Hk. split.
  - assert (k / 6 < 6)%nat by (apply Nat.div_lt_upper_bound; lia). lia.
  - pose proof (Nat.mod_upper_bound k 6). lia.
Qed.
Definition cov_of (P : mat) : list R := map (fun k => ent P (k / 6) (k mod 6)) (seq 0 36).
Definition msg_of (n : nat) (t : R) (s : rstate) : pose_msg := mkPM (Z.of_nat n mod 4294967296) t (col (sX s) 1) (quat_of_mat (rot (sX s))) (cov_of (sP s)).
Lemma trunc_ratio k pr par : ratio_is k pr par -> int_of_double (pr / par) = Ok (Z.of_nat k).
Proof.
  intros (P & [H1 H2] & K1 & K2). unfold int_of_double, trunc. assert (0 <= pr / par) as Q by (pose proof (pos_INR k); lra). destruct (Rle_dec 0 (pr / par)); [|contradiction].
  assert (up (pr / par) = Z.of_nat k + 1)%Z as ->.
  { symmetry. apply tech_up; rewrite plus_IZR, <- INR_IZR_INZ; lra. }
  cbv zeta. replace (Z.of_nat k + 1 - 1)%Z with (Z.of_nat k) by lia. destruct ((-2147483648 <=? Z.of_nat k)%Z && (Z.of_nat k <=? 2147483647)%Z) eqn:E; [reflexivity|]. exfalso. apply andb_false_iff in E. destruct E as [E|E]; apply Z.leb_gt in E; lia.
Qed.
Lemma u32_next n : u32_succ (Z.of_nat n mod 4294967296) = (Z.of_nat (S n) mod 4294967296)%Z.
Proof. unfold u32_succ. rewrite Zplus_mod_idemp_l. f_equal. lia. Qed.
Lemma small_rem n k : (Z.of_nat (S n) < 2147483648)%Z -> (1 <= k)%nat -> (Z.rem (int_of_u32 (Z.of_nat (S n) mod 4294967296)) (Z.of_nat k) =? 0)%Z = Nat.eqb (S n mod k) 0.
Proof.
  intros H K. rewrite Z.mod_small by lia. unfold int_of_u32. destruct (Z.ltb_spec (Z.of_nat (S n)) 2147483648); [|lia].
  rewrite Z.rem_mod_nonneg by lia. rewrite <- Nat2Z.inj_mod. destruct (Nat.eqb_spec (S n mod k) 0) as [E|E]; [rewrite E; reflexivity|]. apply Z.eqb_neq. lia.
Qed.

Lemma pub_facts s : publishable s -> exists t, get_time s = Ok t /\ st s = Some t /\ get_world_position s = Ok (col (sX s) 1) /\ get_world_rotation s = Ok (rot (sX s)) /\ SO3 (rot (sX s)) /\ cov36 (sP s) = Ok (cov_of (sP s)).
Proof.
  intros (K & t & W & T). exists t. destruct (wp_wf _ _ W) as [X Tr Tc Pr Pc]. pose proof (wp_K _ _ W) as HK. pose proof (sek_rows _ _ X) as R1. pose proof (sek_cols _ _ X) as R2.
  unfold get_time, get_world_position, get_world_rotation, get_position, get_rotation. rewrite T, (wp_type _ _ W). rewrite cgetV3_ok, cgetM3_ok by lia. cbn [bind of_opt].
  split; [reflexivity|]. split; [reflexivity|]. split; [reflexivity|]. split; [reflexivity|]. split; [apply X|]. apply cov36_ok; lia.
Qed.
(** taking succeeds on a publishable head *)
Lemma PoseTake_eq k p s q : ratio_is k (pb_pose_rate p) (pb_path_rate p) -> pb_first p = vzero -> pb_took p = true -> pb_q p = s :: q -> publishable s ->
  forall n, pb_seq p = (Z.of_nat n mod 4294967296)%Z -> exists t, st s = Some t /\ PoseTake p = Ok (mkPub q false vzero (Z.of_nat (S n) mod 4294967296) (pb_pose_rate p) (pb_path_rate p)
    (if (Z.rem (int_of_u32 (Z.of_nat (S n) mod 4294967296)) (Z.of_nat k) =? 0)%Z then pb_poses p ++ [in_path (msg_of n t s)] else pb_poses p) (pb_path_seq p) (pb_sent p ++ [msg_of n t s]) (pb_paths p)).
Proof.
  intros HR HF HT HQ HS n HN. destruct (pub_facts s HS) as (t & E1 & E2 & E3 & E4 & E5 & E6). exists t. split; [exact E2|].
  unfold PoseTake. rewrite HT, HQ, E1. cbn [bind]. rewrite E3. cbn [bind]. rewrite E4. cbn [bind]. rewrite E6. cbn [bind].
  destruct (Req_EM_T (pb_path_rate p) 0) as [C|_]; [destruct HR; lra|]. cbn [check bind]. rewrite (trunc_ratio k _ _ HR). cbn [bind].
  assert ((Z.of_nat k =? 0)%Z = false) as -> by (apply Z.eqb_neq; destruct HR as (_ & _ & ? & _); lia). cbn [negb check bind]. rewrite HF, HN, u32_next.
  assert (col (sX s) 1 -v vzero = col (sX s) 1) as -> by (destruct (col (sX s) 1); unfold vsub, vzero; cbn; f_equal; ring). reflexivity.
Qed.

Definition pinv (k : nat) (pr par : R) (l : list pop_) (p : pub) : Prop := exists ss,
  pb_first p = vzero /\ pb_pose_rate p = pr /\ pb_path_rate p = par /\
  pushed_states l = ss ++ pb_q p /\ all_say ss (pb_sent p) /\ (forall n s m, nth_error ss n = Some s -> nth_error (pb_sent p) n = Some m -> pm_cov m = cov_of (sP s)) /\
  pb_seq p = (Z.of_nat (length ss) mod 4294967296)%Z /\ (pb_took p = true -> pb_q p <> []) /\
  ((Z.of_nat (length ss) < 2147483648)%Z -> pb_poses p = map in_path (every k (pb_sent p)) /\ Forall (path_ok k (pb_sent p)) (pb_paths p)).
Lemma pushed_snoc l x : pushed_states (l ++ [x]) = pushed_states l ++ match x with PPush s => [s] | _ => [] end.
Proof. unfold pushed_states. rewrite flat_map_app. cbn. rewrite app_nil_r. reflexivity. Qed.
Lemma path_ok_mono k sent m a : path_ok k sent a -> path_ok k (sent ++ [m]) a.
Proof. intros (n & L & E & H). exists n. rewrite firstn_app. replace (n - length sent)%nat with 0%nat by lia. cbn [firstn]. rewrite app_nil_r, app_length. split; [lia|]. auto. Qed.
Lemma pub_step_inv k pr par l p x : ratio_is k pr par -> pinv k pr par l p -> x <> PClear -> Forall publishable (pushed_states (l ++ [x])) -> exists p', pub_step p x = Ok p' /\ pinv k pr par (l ++ [x]) p'.
Proof.
  intros HR (ss & F & R1 & R2 & A & S & C & N & T & P) NC PB. unfold pinv. rewrite pushed_snoc. destruct x as [s| | | |]; cbn [pub_step].
  - eexists. split; [reflexivity|]. exists ss. cbn. rewrite A, app_assoc. repeat (split; [assumption|]). split; [reflexivity|]. repeat (split; [assumption|]). split; [|assumption]. intros _ E. destruct (pb_q p); discriminate.
  - contradiction.
  - rewrite app_nil_r. destruct (pb_took p) eqn:TK; (eexists; split; [reflexivity|]; exists ss).
    + rewrite TK. auto 12.
    + cbn. split; [assumption|]. split; [assumption|]. split; [assumption|]. split; [assumption|]. split; [assumption|]. split; [assumption|]. split; [assumption|]. split; [|assumption]. destruct (pb_q p); intros; discriminate.
  - rewrite app_nil_r. destruct (pb_took p) eqn:TK.
    2:{ exists p. split; [unfold PoseTake; rewrite TK; reflexivity|]. exists ss. rewrite TK. auto 12. }
    destruct (pb_q p) as [|s q] eqn:Q; [exfalso; apply T; auto|]. assert (publishable s) as PS.
    { rewrite pushed_snoc, A, app_nil_r in PB. apply Forall_app in PB. destruct PB as [_ PB]. inversion PB. assumption. }
    destruct (PoseTake_eq k p s q) with (n := length ss) as (t & ET & E); auto; [rewrite R1, R2; exact HR|]. rewrite E. eexists. split; [reflexivity|]. exists (ss ++ [s]).
    cbn [pb_first pb_pose_rate pb_path_rate pb_q pb_sent pb_seq pb_took pb_poses pb_paths]. split; [reflexivity|]. split; [assumption|]. split; [assumption|]. split; [rewrite A, <- app_assoc; reflexivity|].
    destruct (pub_facts s PS) as (t' & _ & ET' & _ & _ & SR & _).
    split.
    { apply all_say_snoc; [exact S|]. split; [reflexivity|]. split; [exact ET|]. split; [reflexivity|]. apply thm_quat_of_mat. exact SR. }
    split.
    { intros n s0 m0 H1 H2. destruct S as [SL _]. destruct (Nat.lt_ge_cases n (length ss)).
      - rewrite nth_error_app1 in H1, H2 by lia. eauto.
      - rewrite nth_error_app2 in H1, H2 by lia. rewrite SL in H2. destruct (n - length ss)%nat as [|j]; [|destruct j; discriminate]. cbn in H1, H2. injection H1 as <-. injection H2 as <-. reflexivity. }
    rewrite app_length. cbn [length]. split; [f_equal; lia|]. split; [discriminate|]. intros B. destruct P as [P1 P2]; [lia|]. rewrite small_rem by (try lia; apply HR). destruct S as [SL _]. split.
    + rewrite every_snoc, SL, map_app, P1. destruct (Nat.eqb (S (length ss) mod k) 0); cbn [map]; [reflexivity|rewrite app_nil_r; reflexivity].
    + eapply Forall_impl; [|exact P2]. intros a. apply path_ok_mono.
  - rewrite app_nil_r. eexists. split; [reflexivity|]. exists ss. unfold PathPublish. destruct (rev (pb_poses p)) as [|x r] eqn:RV; [auto 12|].
    cbn. repeat (split; [assumption|]). intros B. destruct (P B) as [P1 P2]. split; [assumption|]. apply Forall_app. split; [assumption|]. constructor; [|constructor].
    exists (length (pb_sent p)). rewrite firstn_all. split; [lia|]. cbn [pa_poses pa_t]. split; [assumption|]. assert (pb_poses p = rev r ++ [x]) as E by (rewrite <- (rev_involutive (pb_poses p)), RV; reflexivity). rewrite E. split; [destruct (rev r); discriminate|]. intros d. rewrite last_last. reflexivity.
Qed.
Lemma pub_run_inv k pr par l : ratio_is k pr par -> no_clear l -> Forall publishable (pushed_states l) -> exists p, pub_run (ROSPublisher [] pr par) l = Ok p /\ pinv k pr par l p.
Proof.
  intros HR. induction l as [|x l IH] using rev_ind; intros NC PB.
  - eexists. split; [reflexivity|]. exists []. cbn. do 4 (split; [reflexivity|]). split; [split; [reflexivity|intros [|n] s m H; discriminate]|]. split; [intros [|n] s m H; discriminate|]. split; [reflexivity|]. split; [discriminate|].
    intros _. split; [reflexivity|constructor].
  - destruct IH as (p & E & I); [intros H; apply NC, in_app_iff; auto| |].
    { rewrite pushed_snoc in PB. apply Forall_app in PB. apply PB. }
    unfold pub_run in *. rewrite foldM_app, E. cbn [bind foldM]. destruct (pub_step_inv k pr par l p x HR I) as (p' & E' & I'); [intros ->; apply NC, in_app_iff; right; left; reflexivity|exact PB|].
    rewrite E'. exists p'. split; [reflexivity|exact I'].
Qed.
Lemma thm_publisher k pr par l : ratio_is k pr par -> no_clear l -> Forall publishable (pushed_states l) ->
  exists p ss, pub_run (ROSPublisher [] pr par) l = Ok p /\ pushed_states l = ss ++ pb_q p /\ all_say ss (pb_sent p).
Proof. intros H1 H2 H3. destruct (pub_run_inv k pr par l H1 H2 H3) as (p & E & ss & _ & _ & _ & A & S & _). exists p, ss. auto. Qed.
Lemma thm_path k pr par l p : ratio_is k pr par -> no_clear l -> Forall publishable (pushed_states l) -> (Z.of_nat (length (pushed_states l)) < 2147483648)%Z -> pub_run (ROSPublisher [] pr par) l = Ok p ->
  pb_poses p = map in_path (every k (pb_sent p)) /\ Forall (path_ok k (pb_sent p)) (pb_paths p).
Proof.
  intros H1 H2 H3 H4 H5. destruct (pub_run_inv k pr par l H1 H2 H3) as (p' & E & ss & _ & _ & _ & A & S & _ & _ & _ & P). rewrite H5 in E. injection E as <-. apply P. rewrite A, app_length in H4. lia.
Qed.
(** a pass of the pose thread publishes exactly the oldest state waiting *)
Lemma thm_pose_pass k pr par l p s q : ratio_is k pr par -> no_clear l -> Forall publishable (pushed_states l) -> pub_run (ROSPublisher [] pr par) l = Ok p -> pb_q p = s :: q ->
  exists p' m, pub_run p [PCheck; PTake] = Ok p' /\ pb_q p' = q /\ pb_sent p' = pb_sent p ++ [m] /\ says (length (pb_sent p)) s m.
Proof.
  intros H1 H2 H3 H5 Q. destruct (pub_run_inv k pr par l H1 H2 H3) as (p0 & E & ss & F & R1 & R2 & A & S & C & N & T & P). rewrite H5 in E. injection E as <-.
  set (p1 := if pb_took p then p else PoseCheck p). assert (pb_took p1 = true /\ pb_q p1 = s :: q /\ pb_first p1 = vzero /\ pb_pose_rate p1 = pr /\ pb_path_rate p1 = par /\ pb_seq p1 = pb_seq p /\ pb_sent p1 = pb_sent p) as (B1 & B2 & B3 & B4 & B5 & B6 & B7).
  { unfold p1. destruct (pb_took p) eqn:TK; [auto 10|]. unfold PoseCheck. cbn. rewrite Q. auto 10. }
  assert (publishable s) as PS by (rewrite A, Q in H3; apply Forall_app in H3; destruct H3 as [_ H3]; inversion H3; assumption).
  destruct (PoseTake_eq k p1 s q) with (n := length ss) as (t & ET & E); auto; [rewrite B4, B5; exact H1|congruence|].
  destruct (pub_facts s PS) as (t' & _ & ET' & _ & _ & SR & _).
  do 2 eexists. split; [unfold pub_run; cbn [foldM pub_step bind]; fold p1; rewrite E; reflexivity|]. cbn [pb_q pb_sent]. split; [reflexivity|]. split; [rewrite B7; reflexivity|].
  destruct S as [SL _]. rewrite SL. split; [reflexivity|]. split; [exact ET|]. split; [reflexivity|]. apply thm_quat_of_mat. exact SR.
Qed.
