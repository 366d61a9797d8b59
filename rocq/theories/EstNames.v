(** Proofs: exactly which log file names collide (C32). *)
From Coq Require Import Reals ZArith List Bool Arith Lia Lra String Ascii DecimalString.
From Verif Require Import Res RobotState Inekf Imu Propagation VelCorr LegCorr Estimator SpecEst SpecFiles EstFiles Driver.
Import ListNotations.
Local Open Scope string_scope.

Fixpoint has_us (n : string) : bool :=
  match n with EmptyString => false | String c r => Ascii.eqb c "_" || has_us r end.
Lemma has_us_app a b : has_us (a ++ b) = (has_us a || has_us b)%bool.
Proof. induction a as [|c a IH]; cbn; [reflexivity|]. rewrite IH. apply orb_assoc. Qed.
Lemma after_us : forall a b x y, a ++ "_" ++ x = b ++ "_" ++ y -> has_us x = false -> has_us y = false -> a = b /\ x = y.
Proof.
  induction a as [|c a IH]; intros [|d b] x y E Hx Hy; cbn in E.
  - injection E as ->. auto.
  - injection E as _ E. subst x. rewrite has_us_app in Hx. cbn in Hx. rewrite orb_true_r in Hx. discriminate.
  - injection E as _ E. subst y. rewrite has_us_app in Hy. cbn in Hy. rewrite orb_true_r in Hy. discriminate.
  - injection E as -> E. destruct (IH _ _ _ E Hx Hy) as [-> ->]. auto.
Qed.
Lemma us_uint d : has_us (NilEmpty.string_of_uint d) = false.
Proof. induction d; cbn; auto. Qed.
Lemma us_to_string n : has_us (to_string n) = false.
Proof. unfold to_string. pose proof (us_uint (Nat.to_uint n)) as H. destruct (Nat.to_uint n); auto. Qed.
Lemma to_string_frame n : to_string n <> "frame".
Proof. unfold to_string. destruct (Nat.to_uint n); cbn; discriminate. Qed.
Lemma app_assoc_s a b c : (a ++ b) ++ c = a ++ b ++ c.
Proof. induction a; cbn; congruence. Qed.
Lemma strip_txt x y : x ++ ".txt" = y ++ ".txt" -> x = y. Proof. apply app_cancel_r. Qed.

Lemma mixed_clash pose vel n k j K : K <> KPose -> (k <= n)%nat -> (j <= n)%nat ->
  file_name pose vel (k, KPose) = file_name pose vel (j, K) -> clash n pose vel.
Proof.
  intros HK Hk Hj E. destruct K; [congruence| |]; destruct k as [|k], j as [|j]; cbn [file_name] in E.
  - left. apply strip_txt in E. exact E.
  - right. right. exists j. split; [lia|]. right. left. rewrite <- (app_assoc_s "_"), <- (app_assoc_s vel) in E. apply strip_txt in E. exact E.
  - right. right. exists k. split; [lia|]. left. rewrite <- (app_assoc_s "_"), <- (app_assoc_s pose) in E. apply strip_txt in E. auto.
  - exfalso. rewrite <- (app_assoc_s "_"), <- (app_assoc_s pose), <- (app_assoc_s "_"), <- (app_assoc_s vel) in E. apply strip_txt in E.
    destruct (after_us _ _ _ _ E) as [_ F]; try apply us_to_string. apply to_string_inj in F. lia.
  - right. left. change "_body_frame.txt" with ("_body_frame" ++ ".txt") in E. rewrite <- app_assoc_s in E. apply strip_txt in E. exact E.
  - right. right. exists j. split; [lia|]. right. right. rewrite <- (app_assoc_s "_body_frame_"), <- (app_assoc_s vel) in E. apply strip_txt in E. exact E.
  - exfalso. change "_body_frame.txt" with ("_body" ++ "_" ++ "frame" ++ ".txt") in E.
    rewrite <- (app_assoc_s "_"), <- (app_assoc_s pose), <- (app_assoc_s "_" "frame"), <- (app_assoc_s "_body"), <- (app_assoc_s vel) in E. apply strip_txt in E.
    rewrite <- (app_assoc_s vel "_body") in E. destruct (after_us _ _ _ _ E) as [_ F]; [apply us_to_string|reflexivity|]. eapply to_string_frame; eauto.
  - exfalso. change "_body_frame_" with ("_body_frame" ++ "_") in E. rewrite (app_assoc_s "_body_frame") in E.
    rewrite <- (app_assoc_s "_"), <- (app_assoc_s pose), <- (app_assoc_s "_"), <- (app_assoc_s "_body_frame"), <- (app_assoc_s vel) in E. apply strip_txt in E.
    rewrite <- (app_assoc_s vel "_body_frame") in E. destruct (after_us _ _ _ _ E) as [_ F]; try apply us_to_string. apply to_string_inj in F. lia.
Qed.
Lemma clash_mixed pose vel n : clash n pose vel -> exists k j K, K <> KPose /\ (k <= n)%nat /\ (j <= n)%nat /\ file_name pose vel (k, KPose) = file_name pose vel (j, K).
Proof.
  intros [->|[->|(k & Hk & [->|[->| ->]])]].
  - exists 0%nat, 0%nat, KVel. repeat split; try lia; discriminate.
  - exists 0%nat, 0%nat, KBody. repeat split; try lia; try discriminate. cbn [file_name]. rewrite app_assoc_s. reflexivity.
  - exists (S k), 0%nat, KVel. repeat split; try lia; try discriminate. cbn [file_name]. rewrite !app_assoc_s. reflexivity.
  - exists 0%nat, (S k), KVel. repeat split; try lia; try discriminate. cbn [file_name]. rewrite !app_assoc_s. reflexivity.
  - exists 0%nat, (S k), KBody. repeat split; try lia; try discriminate. cbn [file_name]. rewrite !app_assoc_s. reflexivity.
Qed.
Lemma nodup_map_inj {A B} (f : A -> B) l : NoDup (map f l) -> forall x y, In x l -> In y l -> f x = f y -> x = y.
Proof.
  induction l as [|a l IH]; cbn [map]; intros H x y Hx Hy E; [destruct Hx|]. inversion H as [|? ? H1 H2]; subst.
  destruct Hx as [->|Hx], Hy as [->|Hy]; auto.
  - exfalso. apply H1. rewrite E. apply in_map. exact Hy.
  - exfalso. apply H1. rewrite <- E. apply in_map. exact Hx.
Qed.
Lemma inj_nodup_map {A B} (f : A -> B) l : (forall x y, In x l -> In y l -> f x = f y -> x = y) -> NoDup l -> NoDup (map f l).
Proof.
  intros HI HN. revert HI. induction HN as [|x l Hx HN IH]; intros HI; cbn [map]; constructor.
  - rewrite in_map_iff. intros (y & Hy & Hin). apply Hx. rewrite (HI x y); auto; [left; reflexivity|right; exact Hin].
  - apply IH. intros u v Hu Hv. apply HI; right; assumption.
Qed.
Lemma thm_exact_names f os e : est_run (build f) os = Ok e -> k_logger (f_est f) = true ->
  let pose := base (k_pose_file (f_est f)) "inekf_pose" in let vel := base (k_vel_file (f_est f)) "inekf_vel" in
  NoDup (all_names (e_opened e)) <-> ~ clash (n_clear os) pose vel.
Proof.
  intros E HL pose vel. rewrite (thm_opened f os e E HL). fold pose vel. rewrite all_names_triples. set (ks := seq 0 (S (n_clear os))).
  assert (forall k K, In (k, K) (list_prod ks [KPose; KVel; KBody]) <-> (k <= n_clear os)%nat) as Hin.
  { intros k K. rewrite in_prod_iff. unfold ks. rewrite in_seq. split; [lia|]. intros H. split; [lia|]. destruct K; cbn; auto. }
  split.
  - intros HN HC. destruct (clash_mixed _ _ _ HC) as (k & j & K & HK & Hk & Hj & HE).
    pose proof (nodup_map_inj _ _ HN (k, KPose) (j, K) (proj2 (Hin _ _) Hk) (proj2 (Hin _ _) Hj) HE) as X. congruence.
  - intros HC. apply inj_nodup_map; [|apply nodup_prod; [apply seq_NoDup|exact nodup_kinds]].
    intros [k K] [j J] Hx Hy H. apply Hin in Hx, Hy.
    assert (forall k j J, J <> KPose -> (k <= n_clear os)%nat -> (j <= n_clear os)%nat -> file_name pose vel (k, KPose) <> file_name pose vel (j, J)) as HX.
    { intros a b c Hc Ha Hb Heq. apply HC. exact (mixed_clash pose vel _ a b c Hc Ha Hb Heq). }
    destruct K, J; try (apply name_same_kind in H; congruence).
    + exfalso. eapply HX; [|exact Hx|exact Hy|exact H]; discriminate.
    + exfalso. eapply HX; [|exact Hx|exact Hy|exact H]; discriminate.
    + exfalso. symmetry in H. eapply HX; [|exact Hy|exact Hx|exact H]; discriminate.
    + exfalso. eapply name_vel_body; eauto.
    + exfalso. symmetry in H. eapply HX; [|exact Hy|exact Hx|exact H]; discriminate.
    + exfalso. symmetry in H. eapply name_vel_body; eauto.
Qed.

(** the shipped programs *)
Lemma app_shift a c r : a ++ String c r = (a ++ String c "") ++ r.
Proof. rewrite app_assoc_s. reflexivity. Qed.
Lemma no_clash_ext pose x n : (forall k, x <> "_" ++ to_string k) -> x <> "" -> ~ clash n pose (pose ++ x).
Proof.
  intros HX HN [E|[E|(k & _ & [E|[E|E]])]].
  - assert (pose ++ "" = pose ++ x) as F by (rewrite <- E; clear; induction pose; cbn; congruence). apply app_cancel_l in F. auto.
  - rewrite app_assoc_s in E. pose proof (f_equal String.length E) as L. rewrite app_length_s in L. rewrite app_length_s in L. cbn in L. lia.
  - apply app_cancel_l in E. eapply HX; eauto.
  - rewrite app_assoc_s in E. pose proof (f_equal String.length E) as L. rewrite !app_length_s in L. cbn in L. lia.
  - rewrite app_assoc_s in E. pose proof (f_equal String.length E) as L. rewrite !app_length_s in L. cbn in L. lia.
Qed.
Lemma to_string_digit n : exists c s, to_string n = String c s /\ (nat_of_ascii c < 58)%nat.
Proof. unfold to_string. destruct (Nat.to_uint n); cbn [NilZero.string_of_uint NilEmpty.string_of_uint]; eexists _, _; (split; [reflexivity|]); vm_compute; lia. Qed.
Lemma not_number c r : (58 <= nat_of_ascii c)%nat -> forall k, String "_" (String c r) <> "_" ++ to_string k.
Proof. intros H k E. destruct (to_string_digit k) as (d & s & F & L). rewrite F in E. cbn in E. injection E as -> _. lia. Qed.
Lemma no_clash_split a b n : prefix a b = false -> prefix b a = false -> ~ clash n a b.
Proof.
  intros P1 P2 H. destruct (clash_mixed _ _ _ H) as (k & j & K & HK & _ & _ & E).
  destruct (name_pose_start a b k) as [u U]. destruct (name_vel_start a b j K HK) as [v V]. rewrite U, V in E.
  apply app_prefix in E. destruct E; congruence.
Qed.
Definition pose_base (f : config) : string := base (k_pose_file (f_est f)) "inekf_pose".
Definition vel_base (f : config) : string := base (k_vel_file (f_est f)) "inekf_vel".
Lemma thm_shipped_names f n : In f shipped -> f <> mini_cheetah -> ~ clash n (pose_base f) (vel_base f).
Proof.
  intros H HN. unfold shipped in H. cbn [In] in H.
  destruct H as [<-|[<-|[<-|[<-|[<-|[<-|[<-|[<-|[<-|[<-|[]]]]]]]]]]]; try congruence; unfold pose_base, vel_base; cbn [f_est k_pose_file k_vel_file fetch fetch_gyro_filter girona500 husky husky_double_imu_filter husky_gyro_filter husky_odom neya neya_gyro_filter].
  - change (base (Some "/media/justin/DATA/result/DRIFT_TRO/fetch//08_origin/InEKF_velocity.txt") "inekf_vel") with (base (Some "/media/justin/DATA/result/DRIFT_TRO/fetch//08_origin/InEKF.txt") "inekf_pose" ++ "_velocity").
    apply no_clash_ext; [|discriminate]. apply not_number. vm_compute. lia.
  - change (base (Some "/media/justin/DATA/result/DRIFT_TRO/fetch//08_origin/InEKF_gyro_filter_velocity.txt") "inekf_vel") with (base (Some "/media/justin/DATA/result/DRIFT_TRO/fetch//08_origin/InEKF_gyro_filter.txt") "inekf_pose" ++ "_velocity").
    apply no_clash_ext; [|discriminate]. apply not_number. vm_compute. lia.
  - change (base (Some "/media/justin/DATA/result/DRIFT_TRO/underwater/test_vel.txt") "inekf_vel") with (base (Some "/media/justin/DATA/result/DRIFT_TRO/underwater/test.txt") "inekf_pose" ++ "_vel").
    apply no_clash_ext; [|discriminate]. apply not_number. vm_compute. lia.
  - change (base (Some "/media/justin/DATA/result/DRIFT_TRO/husky/test_velocity.txt") "inekf_vel") with (base (Some "/media/justin/DATA/result/DRIFT_TRO/husky/test.txt") "inekf_pose" ++ "_velocity").
    apply no_clash_ext; [|discriminate]. apply not_number. vm_compute. lia.
  - apply no_clash_split; reflexivity.
  - change (base (Some "/home/justin/code/drift/log/husky_gyro_filter_vel_log.txt") "inekf_vel") with (base (Some "/home/justin/code/drift/log/husky_gyro_filter.txt") "inekf_pose" ++ "_vel_log").
    apply no_clash_ext; [|discriminate]. apply not_number. vm_compute. lia.
  - apply no_clash_split; reflexivity.
  - change (base (Some "/media/justin/DATA/result/DRIFT_TRO/neya/test_velocity.txt") "inekf_vel") with (base (Some "/media/justin/DATA/result/DRIFT_TRO/neya/test.txt") "inekf_pose" ++ "_velocity").
    apply no_clash_ext; [|discriminate]. apply not_number. vm_compute. lia.
  - change (base (Some "/media/justin/DATA/result/DRIFT_TRO/neya/follow/InEKF_gyro_filter_velocity.txt") "inekf_vel") with (base (Some "/media/justin/DATA/result/DRIFT_TRO/neya/follow/InEKF_gyro_filter.txt") "inekf_pose" ++ "_velocity").
    apply no_clash_ext; [|discriminate]. apply not_number. vm_compute. lia.
Qed.
Lemma shipped_logger f : In f shipped -> k_logger (f_est f) = true.
Proof. unfold shipped. cbn [In]. intros H. repeat (destruct H as [<-|H]; [reflexivity|]). destruct H. Qed.
Lemma thm_shipped_files f os e : In f shipped -> f <> mini_cheetah -> est_run (build f) os = Ok e -> NoDup (all_names (e_opened e)).
Proof. intros H HN E. apply (thm_exact_names f os e E (shipped_logger f H)). apply thm_shipped_names; assumption. Qed.
Lemma thm_cheetah_refuted : exists x y, e_opened (build mini_cheetah) = [(x, x, y)].
Proof. eexists _, _. reflexivity. Qed.

Lemma clear_ok e ip : e_prop e = Some ip -> exists e' ip', est_step e OClear = Ok e' /\ e_prop e' = Some ip'.
Proof.
  intros H. cbn [est_step]. unfold Clear. rewrite H. cbn [of_opt bind e_logger e_set e_names]. destruct (e_logger e); [destruct (e_names e)|]; eexists _, _; split; reflexivity.
Qed.
Lemma clear_twice e ip : e_prop e = Some ip -> exists e', est_run e [OClear; OClear] = Ok e'.
Proof.
  intros H. destruct (clear_ok _ _ H) as (e1 & ip1 & E1 & H1). destruct (clear_ok _ _ H1) as (e2 & ip2 & E2 & H2). exists e2.
  unfold est_run. cbn [foldM]. rewrite E1. cbn [bind]. rewrite E2. reflexivity.
Qed.
Lemma thm_shipped_names_example : In husky shipped /\ husky <> mini_cheetah /\ exists e, est_run (build husky) [OClear; OClear] = Ok e.
Proof.
  split; [unfold shipped; cbn [In]; tauto|]. split; [intros E; apply (f_equal f_err) in E; discriminate E|].
  rewrite EstSafe.build_eq. eapply clear_twice. reflexivity.
Qed.
