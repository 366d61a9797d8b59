(** The publisher with clear(), passes of the pose thread uninterrupted. *)
From Coq Require Import Reals ZArith List Bool Arith Lia Lra.
From Verif Require Import Res Vec3 Mat Spec LieGroup RobotState SpecFilter SpecProp Imu Quat QuatThms Ros SpecRos RosPub.
Import ListNotations.
Local Open Scope R_scope.

Lemma subseq_app_drop {A} (l l' r : list A) : subseq l l' -> subseq l (l' ++ r).
Proof. induction 1; cbn; constructor; auto. Qed.
Lemma subseq_nil_app {A} (a b : list A) : subseq b (a ++ b).
Proof. induction a; cbn; [|constructor; auto]. induction b; constructor; auto. Qed.
Lemma subseq_refl {A} (a : list A) : subseq a a. Proof. induction a; constructor; auto. Qed.
Lemma subseq_snoc {A} (l l' : list A) x : subseq l l' -> subseq (l ++ [x]) (l' ++ [x]).
Proof. induction 1 as [l'|y l l' H IH|y l l' H IH]; cbn; [apply subseq_nil_app|apply sub_take; auto|apply sub_drop; auto]. Qed.
Lemma subseq_trunc {A} (l a b : list A) : subseq (l ++ a) b -> subseq l b.
Proof. revert b. induction l as [|x l IH]; intros b H; [constructor|]. cbn in H. remember (x :: l ++ a) as y. revert x l a Heqy IH. induction H; intros; [discriminate| |].
  - injection Heqy as -> ->. apply sub_take. eapply IH. exact H.
  - apply sub_drop. eapply IHsubseq; eauto. Qed.
Definition ainv (pr par : R) (l : list apop) (p : pub) : Prop := exists ss n,
  pb_first p = vzero /\ pb_pose_rate p = pr /\ pb_path_rate p = par /\ pb_took p = false /\ pb_seq p = (Z.of_nat n mod 4294967296)%Z /\ n = length ss /\ Forall publishable (pb_q p) /\
  subseq (ss ++ pb_q p) (pushed_states (expand l)) /\ all_say ss (pb_sent p).
Lemma expand_snoc l x : expand (l ++ [x]) = expand l ++ expand [x].
Proof. unfold expand. rewrite flat_map_app. reflexivity. Qed.
Lemma pushed_app a b : pushed_states (a ++ b) = pushed_states a ++ pushed_states b.
Proof. unfold pushed_states. apply flat_map_app. Qed.
Lemma thm_atomic k pr par l : ratio_is k pr par -> Forall publishable (pushed_states (expand l)) ->
  exists p ss, pub_run (ROSPublisher [] pr par) (expand l) = Ok p /\ subseq (ss ++ pb_q p) (pushed_states (expand l)) /\ all_say ss (pb_sent p).
Proof.
  intros HR HP. assert (exists p, pub_run (ROSPublisher [] pr par) (expand l) = Ok p /\ ainv pr par l p) as (p & E & ss & n & _ & _ & _ & _ & _ & _ & _ & S & Y); [|eauto].
  revert HP. induction l as [|x l IH] using rev_ind; intros HP.
  - eexists. split; [reflexivity|]. exists [], 0%nat. cbn. do 6 (split; [reflexivity|]). split; [constructor|]. split; [constructor|]. split; [reflexivity|]. intros [|i] s m H; discriminate.
  - rewrite expand_snoc in *. rewrite pushed_app in HP. apply Forall_app in HP. destruct HP as [HP1 HP2]. destruct (IH HP1) as (p & E & ss & n & F & R1 & R2 & T & N & L & Q & S & Y).
    unfold pub_run in *. rewrite foldM_app, E. cbn [bind]. unfold ainv. rewrite expand_snoc, pushed_app. destruct x as [s| | |]; cbn [expand flat_map app foldM pub_step bind pushed_states].
    + eexists. split; [reflexivity|]. exists ss, n. cbn. do 6 (split; [assumption|]). split; [apply Forall_app; split; [assumption|]; inversion HP2; subst; constructor; auto|]. split; [|assumption]. rewrite app_assoc. apply subseq_snoc. exact S.
    + eexists. split; [reflexivity|]. exists ss, n. cbn. rewrite !app_nil_r. do 6 (split; [assumption|]). split; [constructor|]. split; [|assumption]. eapply subseq_trunc. exact S.
    + rewrite T. destruct (pb_q p) as [|s q] eqn:EQ.
      * exists (PoseCheck p). split; [unfold PoseTake, PoseCheck; cbn [pb_took]; rewrite EQ; reflexivity|]. exists ss, n. unfold PoseCheck. cbn. rewrite EQ, !app_nil_r in *. auto 12.
      * inversion Q; subst. destruct (PoseTake_eq k (PoseCheck p) s q) with (n := length ss) as (t & ET & EE); auto; try (unfold PoseCheck; cbn; rewrite ?EQ; auto; fail).
        rewrite EE. eexists. split; [reflexivity|]. exists (ss ++ [s]), (length (ss ++ [s])). cbn [pb_first pb_pose_rate pb_path_rate pb_q pb_sent pb_seq pb_took PoseCheck]. rewrite app_nil_r.
        split; [reflexivity|]. split; [reflexivity|]. split; [reflexivity|]. split; [reflexivity|]. split; [rewrite app_length; cbn; f_equal; lia|]. split; [reflexivity|]. split; [assumption|]. split; [rewrite <- app_assoc; exact S|].
        apply all_say_snoc; [exact Y|]. destruct (pub_facts s) as (t' & _ & _ & _ & _ & SR & _); [assumption|]. split; [reflexivity|]. split; [exact ET|]. split; [reflexivity|]. apply thm_quat_of_mat. exact SR.
    + eexists. split; [reflexivity|]. exists ss, n. cbn. rewrite app_nil_r. unfold PathPublish. destruct (rev (pb_poses p)); cbn; auto 12.
Qed.
