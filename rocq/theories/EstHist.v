(** Proofs: settings are constant, initialisation, conservation of readings, time stamps. *)
From Coq Require Import Reals ZArith List Bool Arith Lia Lra.
From Verif Require Import Res Vec3 Mat MatInv Psd Spec LieGroup LieSO3 LieSEK RobotState StateProofs Inekf SpecFilter InekfThms Blk Imu Propagation SpecProp
  PropagationThms ImuRest ImuThms ImuNeg Queue VelCorr LegCorr SpecCorr VelThms PsdBlk LegThms LegUpd LegHist Estimator SpecEst EstInv EstSafe EstPub.
Import ListNotations.
Local Open Scope R_scope.

(** ** constant settings *)
Definition e_fixed (e : est) := (e_err e, e_logger e, e_rate e, e_names e, (e_rot_cov e, e_vel_cov e, e_pos_cov e), e_slip e).
Definition ip_fixed (ip : imu_prop) := (ip_err ip, ip_static ip, ip_init_size ip, ip_use_ori ip, ip_Rib ip, (ip_gyro_cov ip, ip_accel_cov ip),
  (ip_gyro_bias_cov ip, ip_accel_bias_cov ip), ip_enable ip, ip_t ip).
Definition c_fixed (c : corr_obj) :=
  match c with
  | CVel c => (true, vc_err c, (vc_cov c, vc_R c), vc_thr c, vc_scale c, 0)
  | CLeg c => (false, lc_err c, (lc_contact_cov c, mid), lc_thr c, lc_enc_std c, lc_kin_std c)
  end.
Lemma vel_Correct_fixed c s a b c' s' : vel_Correct c s a = Ok (b, c', s') -> c_fixed (CVel c') = c_fixed (CVel c).
Proof. intros E. destruct (vel_Correct_spec _ _ _ _ _ _ E) as [-> _]. reflexivity. Qed.
Lemma leg_update_fixed c h m s c' h' s' : leg_update c h m s = Ok (c', h', s') -> c_fixed (CLeg c') = c_fixed (CLeg c).
Proof.
  intros E. unfold leg_update in E. apply bind_inv in E. destruct E as ([[[[H N] Z] rem] new] & _ & E).
  apply bind_inv in E. destruct E as (s1 & _ & E). apply bind_inv in E. destruct E as ([[h1 s2] mp] & _ & E).
  apply bind_inv in E. destruct E as ([[[h2 s3] mp2] P] & _ & E). injection E as <- <- <-. reflexivity.
Qed.
Lemma leg_Correct_fixed c h s a b c' h' s' : leg_Correct c h s a = Ok (b, c', h', s') -> c_fixed (CLeg c') = c_fixed (CLeg c).
Proof.
  intros E. destruct (leg_Correct_spec _ _ _ _ _ _ _ _ E) as (f & _ & _ & _ & F). destruct (f_used f).
  - destruct F as (_ & q & F & _). apply leg_update_fixed in F. exact F.
  - destruct F as (_ & -> & _). reflexivity.
Qed.
Lemma correct_all_fixed : forall cs h s l b cs' h' s', correct_all cs h s l = Ok (b, cs', h', s') -> map c_fixed cs' = map c_fixed cs.
Proof.
  induction cs as [|c cs IH]; intros h s l b cs' h' s' E; cbn [correct_all] in E.
  - injection E as <- <- <- <-. reflexivity.
  - apply bind_inv in E. destruct E as ([[[b1 c1] h1] s1] & E1 & E). apply bind_inv in E. destruct E as ([[[b2 cs2] h2] s2] & E2 & E).
    injection E as <- <- <- <-. cbn [map]. f_equal; [|eapply IH; eauto]. destruct c as [c|c]; cbn [corr_Correct] in E1.
    + apply bind_inv in E1. destruct E1 as ([[b3 c3] s3] & E1 & E3). injection E3 as <- <- <- <-. eapply vel_Correct_fixed; eauto.
    + apply bind_inv in E1. destruct E1 as ([[[b3 c3] h3] s3] & E1 & E3). injection E3 as <- <- <- <-. eapply leg_Correct_fixed; eauto.
Qed.
Lemma vel_spin_fixed : forall sched c s c' s', vel_spin c s sched = Ok (c', s') -> c_fixed (CVel c') = c_fixed (CVel c).
Proof.
  assert (forall c s a b c' s', vel_initialize c s a = Ok (b, c', s') -> c_fixed (CVel c') = c_fixed (CVel c)) as HI.
  { intros c s a b c' s' E. unfold vel_initialize in E. destruct (vc_queue c ++ a); [injection E as <- <- <-; reflexivity|].
    apply bind_inv in E. destruct E as (R & _ & E). apply bind_inv in E. destruct E as (s1 & _ & E). injection E as <- <- <-. reflexivity. }
  induction sched as [|x xs IH]; intros c s c' s' E; cbn [vel_spin] in E; apply bind_inv in E; destruct E as ([[b c1] s1] & E1 & E);
    apply HI in E1; (destruct b; [injection E as <- <-; exact E1|]); [discriminate|]. rewrite <- E1. eapply IH; eauto.
Qed.
Lemma leg_spin_fixed : forall sched c s c' s', leg_spin c s sched = Ok (c', s') -> c_fixed (CLeg c') = c_fixed (CLeg c).
Proof.
  assert (forall c s a b c' s', leg_initialize c s a = Ok (b, c', s') -> c_fixed (CLeg c') = c_fixed (CLeg c)) as HI.
  { intros c s a b c' s' E. unfold leg_initialize in E. destruct (lc_queue c ++ a); [injection E as <- <- <-; reflexivity|].
    apply bind_inv in E. destruct E as (w & _ & E). apply bind_inv in E. destruct E as (R & _ & E). apply bind_inv in E. destruct E as (s1 & _ & E). injection E as <- <- <-. reflexivity. }
  induction sched as [|x xs IH]; intros c s c' s' E; cbn [leg_spin] in E; apply bind_inv in E; destruct E as ([[b c1] s1] & E1 & E);
    apply HI in E1; (destruct b; [injection E as <- <-; exact E1|]); [discriminate|]. rewrite <- E1. eapply IH; eauto.
Qed.
Lemma spin_all_fixed : forall cs s l cs' s', spin_all cs s l = Ok (cs', s') -> map c_fixed cs' = map c_fixed cs.
Proof.
  induction cs as [|c cs IH]; intros s l cs' s' E; cbn [spin_all] in E.
  - injection E as <- <-. reflexivity.
  - apply bind_inv in E. destruct E as ([c1 s1] & E1 & E). apply bind_inv in E. destruct E as ([cs2 s2] & E2 & E).
    injection E as <- <-. cbn [map]. f_equal; [|eapply IH; eauto]. destruct c as [c|c]; cbn [corr_spin] in E1;
    apply bind_inv in E1; destruct E1 as ([c3 s3] & E1 & E3); injection E3 as <- <-; [eapply vel_spin_fixed|eapply leg_spin_fixed]; eauto.
Qed.
Lemma push_fixed i v l : forall cs, map c_fixed (upd_nth cs i (fun c => push_corr c v l)) = map c_fixed cs.
Proof. induction i as [|i IH]; intros [|[c|c] cs]; cbn [upd_nth map]; auto; f_equal; auto. Qed.
Lemma deliver_fixed : forall cs l, map c_fixed (deliver_all cs l) = map c_fixed cs.
Proof. induction cs as [|[c|c] cs IH]; intros l; cbn [deliver_all map]; auto; f_equal; auto. Qed.
Lemma Propagate_fixed ip s b ip' s' : Propagate ip s = Ok (b, ip', s') -> ip_fixed ip' = ip_fixed ip.
Proof.
  unfold Propagate. destruct (ip_queue ip); [intros [= <- <- <-]; reflexivity|]. intros E. apply bind_inv in E. destruct E as (m & _ & E).
  apply bind_inv in E. destruct E as (s1 & _ & E). injection E as <- <- <-. reflexivity.
Qed.
Lemma InitBias_fixed ip ip' : InitImuBias ip = Ok ip' -> ip_fixed ip' = ip_fixed ip.
Proof.
  unfold InitImuBias. destruct (negb (ip_static ip)); [intros [= <-]; reflexivity|]. destruct (size_lt _ _).
  - destruct (ip_queue ip); intros [= <-]; reflexivity.
  - intros E. apply bind_inv in E. destruct E as (u & _ & E). injection E as <-. reflexivity.
Qed.
Lemma set_initial_fixed ip s b ip' s' : set_initial_state ip s = Ok (b, ip', s') -> ip_fixed ip' = ip_fixed ip.
Proof.
  unfold set_initial_state. destruct (ip_queue ip); [intros [= <- <- <-]; reflexivity|]. intros E. repeat (apply bind_inv in E; destruct E as (? & _ & E)).
  injection E as <- <- <-. reflexivity.
Qed.

Lemma step_fixed e o e' : est_step e o = Ok e' -> e_fixed e' = e_fixed e /\ map c_fixed (e_corrs e') = map c_fixed (e_corrs e) /\
  option_map ip_fixed (e_prop e') = option_map ip_fixed (e_prop e).
Proof.
  destruct o; cbn [est_step]; intros E.
  - destruct (e_prop e) as [ip|] eqn:Hp; [|discriminate]. injection E as <-. cbn. auto.
  - injection E as <-. cbn. rewrite push_fixed. auto.
  - injection E as <-. cbn. rewrite push_fixed. auto.
  - unfold InitBias in E. destruct (e_prop e) as [ip|] eqn:Hp; [|discriminate]. cbn in E. apply bind_inv in E. destruct E as (ip' & E1 & E). injection E as <-.
    cbn. apply InitBias_fixed in E1. rewrite E1. auto.
  - unfold InitState in E. destruct (e_prop e) as [ip|] eqn:Hp; [|discriminate]. cbn in E. apply bind_inv in E. destruct E as ([[b ip'] s] & E1 & E).
    apply set_initial_fixed in E1. destruct b; cbn [negb] in E.
    + apply bind_inv in E. destruct E as ([cs s1] & E2 & E). repeat (apply bind_inv in E; destruct E as (? & _ & E)). injection E as <-. cbn.
      rewrite (spin_all_fixed _ _ _ _ _ E2), E1. auto.
    + injection E as <-. cbn. rewrite deliver_fixed, E1. auto.
  - unfold RunOnce in E. destruct (e_prop e) as [ip|] eqn:Hp; [|discriminate]. cbn in E. apply bind_inv in E. destruct E as ([[b ip'] s] & E1 & E).
    apply Propagate_fixed in E1. apply bind_inv in E. destruct E as ([[[b2 cs] h] s1] & E2 & E). apply correct_all_fixed in E2.
    destruct (b || b2); [apply bind_inv in E; destruct E as (s2 & _ & E)|]; injection E as <-; cbn; rewrite E1, E2; auto.
  - unfold Clear in E. destruct (e_prop e) as [ip|] eqn:Hp; [|discriminate]. cbn in E.
    assert (map c_fixed (map corr_clear (e_corrs e)) = map c_fixed (e_corrs e)) as HC by (rewrite map_map; apply map_ext; intros [x|x]; reflexivity).
    destruct (e_logger e) eqn:El; [destruct (e_names e) as [pose vel] eqn:En|]; injection E as <-; unfold e_fixed; cbn; rewrite HC, ?Hp, ?El, ?En; auto.
  - injection E as <-. auto.
  - injection E as <-. unfold LogPop. destruct (e_pending e), (e_logq e); auto.
  - unfold LogWrite in E. destruct (e_pending e) as [x|]; [|injection E as <-; auto]. apply bind_inv in E. destruct E as (t & _ & E).
    destruct (e_logger e && log_due (e_rate e) (t - e_lastpub e)); [|injection E as <-; auto].
    repeat (apply bind_inv in E; destruct E as (? & _ & E)). injection E as <-. auto.
Qed.
Lemma run_fixed : forall os e e', est_run e os = Ok e' -> e_fixed e' = e_fixed e /\ map c_fixed (e_corrs e') = map c_fixed (e_corrs e) /\
  option_map ip_fixed (e_prop e') = option_map ip_fixed (e_prop e).
Proof.
  induction os as [|o os IH]; intros e e' E; cbn in E; [injection E as <-; auto|]. apply bind_inv in E. destruct E as (e1 & E1 & E).
  destruct (step_fixed _ _ _ E1) as (A & B & C). destruct (IH _ _ E) as (A' & B' & C'). rewrite A', B', C'. auto.
Qed.

(** ** initialisation *)
Lemma last_newest {A} (u : list A) m : u <> [] -> m = last u m -> newest u = Some m.
Proof.
  intros H E. destruct (exists_last H) as (u' & x & ->). rewrite last_last in E. subst x. unfold newest. rewrite rev_app_distr. reflexivity.
Qed.
Lemma newest_app {A} (a b : list A) : newest (a ++ b) = match newest b with Some x => Some x | None => newest a end.
Proof. unfold newest. rewrite rev_app_distr. destruct (rev b); reflexivity. Qed.
Lemma newest_map {A B} (f : A -> B) l : newest (map f l) = option_map f (newest l).
Proof. unfold newest. rewrite <- map_rev. destruct (rev l); reflexivity. Qed.
Lemma spin_took K w : forall cs s l cs' s', wfp K s -> sbav s = Some w -> spin_all cs s l = Ok (cs', s') ->
  exists us, took_all cs l us cs' /\
    match newest (concat us) with
    | Some x => col (sX s') 0 = rot (sX s) *v r_vel w x /\ st s' = Some (r_time x)
    | None => col (sX s') 0 = col (sX s) 0 /\ st s' = st s
    end.
Proof.
  induction cs as [|c cs IH]; intros s l cs' s' W Ew E; cbn [spin_all] in E.
  { injection E as <- <-. exists []. cbn. auto. }
  apply bind_inv in E. destruct E as ([c1 s1] & E1 & E). apply bind_inv in E. destruct E as ([cs2 s2] & E2 & E). injection E as <- <-.
  assert (exists u x, queued c ++ arriving c (hd_arr l) = u ++ queued c1 /\ u <> [] /\ newest u = Some x /\ s1 = put_vel s (rot (sX s) *v r_vel w x) (r_time x)) as (u & x & U1 & U2 & U3 & ->).
  { destruct c as [c|c]; cbn [corr_spin] in E1; apply bind_inv in E1; destruct E1 as ([c3 s3] & E1 & E3); injection E3 as <- <-.
    - destruct (vel_spin_ok K (a_vel (hd_arr l)) c s W) as [H1 H2].
      destruct (nil_dec (vc_queue c ++ concat (a_vel (hd_arr l)))) as [En|En]; [rewrite H2 in E1; congruence|].
      destruct (H1 En) as (m & u & q & A1 & A2 & A3 & A4). rewrite A4 in E1. injection E1 as <- <-.
      exists (map Datatypes.inl u), (Datatypes.inl m). cbn [queued arriving vc_queue vc_set_queue]. rewrite <- !map_app, A1. split; [reflexivity|].
      split; [destruct u; [congruence|discriminate]|]. split; [rewrite newest_map, (last_newest u m) by auto; reflexivity|reflexivity].
    - destruct (leg_spin_ok K w (a_leg (hd_arr l)) c s W Ew) as [H1 H2].
      destruct (nil_dec (lc_queue c ++ concat (a_leg (hd_arr l)))) as [En|En]; [rewrite H2 in E1; congruence|].
      destruct (H1 En) as (m & u & q & A1 & A2 & A3 & A4). rewrite A4 in E1. injection E1 as <- <-.
      exists (map Datatypes.inr u), (Datatypes.inr m). cbn [queued arriving lc_queue lc_set_queue]. rewrite <- !map_app, A1. split; [reflexivity|].
      split; [destruct u; [congruence|discriminate]|]. split; [rewrite newest_map, (last_newest u m) by auto; reflexivity|reflexivity]. }
  set (s1 := put_vel s (rot (sX s) *v r_vel w x) (r_time x)) in *.
  assert (wfp K s1) as W1 by (apply put_vel_wfp; auto). pose proof (put_vel_X K s (rot (sX s) *v r_vel w x) (r_time x) W) as EX. fold s1 in EX.
  destruct (IH s1 (tl_arr l) cs2 s2 W1 Ew E2) as (us & T & N). exists (u :: us). split; [cbn [took_all]; auto|].
  cbn [concat]. rewrite newest_app. destruct (newest (concat us)) as [y|].
  - destruct N as [N1 N2]. rewrite N1. split; [|exact N2]. f_equal. rewrite EX. apply rot_aff.
  - rewrite U3. destruct N as [N1 N2]. rewrite N1, N2. split; [|reflexivity]. rewrite EX. rewrite col_aff; [reflexivity|]. destruct W as [_ HK _ _ _]. lia.
Qed.
