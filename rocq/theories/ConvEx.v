(** C57: an example, and the counterexample with a non-zero initial velocity. *)
From Coq Require Import Reals ZArith List Bool Arith Lia Lra.
From Verif Require Import Res Vec3 Mat MatInv Psd Spec LieGroup LieSO3 LieSEK RobotState StateProofs Inekf SpecFilter InekfThms Blk Imu Propagation SpecProp
  PropagationThms PropagationLog ImuRest ImuThms ImuNeg Queue VelCorr LegCorr SpecCorr VelThms PsdBlk LegThms LegUpd LegHist Estimator SpecEst EstInv EstSafe EstPub EstHist EstTime EstEx
  ConvLeg ConvFilter SpecConv ConvEst.
Import ListNotations.
Local Open Scope R_scope.

(** one velocity correction, calibration off *)
Definition cvF : config := mkCfg LeftInvariant exE exI [GVel no_vcfg].
Definition cvPre (v : V3) : list op := [OInitBias; OImu (exM 1); OVel 0 (mkVM (8 / 10) v)].
Definition cvOps (v : V3) : list op := cvPre v ++ [OInitState []; OImu (exM 2); ORunOnce []].
Lemma cvF_ok er : config_ok (with_err cvF er).
Proof. split; [discriminate|]. split; [|cbn; lia]. repeat constructor. discriminate. Qed.
Lemma cv_stream v : imu_stream (imus (cvOps v)).
Proof. split; [repeat constructor; unfold qnorm2; cbn; ring|]. cbn. lra. Qed.

Section Run.
Variables (er : error_type) (v : V3).
Let f := with_err cvF er.
Definition cvIp0 := ImuPropagation [] er exI.
Definition cvIp1 : imu_prop := match InitImuBias cvIp0 with Ok ip => ip | Fail _ => cvIp0 end.
Definition cvIp2 : imu_prop := set_queue cvIp1 [exM 1].
Definition cvE1 : est := e_set_prop (build f) cvIp1.
Definition cvE2 : est := e_set_prop cvE1 cvIp2.
Definition cvC3 : vel_corr := vc_set_queue (VelocityCorrection [] er no_vcfg) [mkVM (8 / 10) v].
Definition cvE3 : est := e_set_corrs cvE2 [CVel cvC3].
Lemma cvP0 : e_prop (build f) = Some cvIp0. Proof. rewrite build_eq. reflexivity. Qed.
Lemma cvC0 : e_corrs (build f) = [CVel (VelocityCorrection [] er no_vcfg)]. Proof. rewrite build_eq. reflexivity. Qed.
Lemma cvN0 : e_enabled (build f) = false. Proof. rewrite build_eq. reflexivity. Qed.
Lemma cvO0 : e_out (build f) = []. Proof. rewrite build_eq. reflexivity. Qed.
Lemma cvS1 : est_step (build f) OInitBias = Ok cvE1.
Proof. cbn [est_step]. unfold InitBias. rewrite cvP0. reflexivity. Qed.
Lemma cvS2 : est_step cvE1 (OImu (exM 1)) = Ok cvE2. Proof. reflexivity. Qed.
Lemma cvS3 : est_step cvE2 (OVel 0 (mkVM (8 / 10) v)) = Ok cvE3.
Proof. cbn [est_step]. change (e_corrs cvE2) with (e_corrs (build f)). rewrite cvC0. reflexivity. Qed.
Lemma cvA1 : allowed (build f) OInitBias.
Proof. split; [exact cvN0|]. unfold BiasInitialized. rewrite cvP0. reflexivity. Qed.
Lemma cvA3 : allowed cvE3 (OInitState []).
Proof. split; [|reflexivity]. change (e_enabled cvE3) with (e_enabled (build f)). exact cvN0. Qed.
Lemma cv_reach : reachable f (cvPre v) cvE3.
Proof.
  split; [apply cvF_ok|]. split; [split; [repeat constructor; unfold qnorm2; cbn; ring|cbn; lra]|]. split.
  - cbn [cvPre protocol]. split; [exact cvA1|]. intros x _. split; [exact I|]. intros y _. split; [exact I|]. auto.
  - unfold cvPre, est_run. cbn [foldM]. rewrite cvS1. cbn [bind]. rewrite cvS2. cbn [bind]. rewrite cvS3. reflexivity.
Qed.
Lemma cv_init : exists e, InitState cvE3 [] = Ok e /\ e_enabled e = true /\ e_out e = [e_state e] /\ col (sX (e_state e)) 0 = v /\ rot (sX (e_state e)) = mid /\
  wfp 2 (e_state e) /\ sP (e_state e) = bdiag 5 (start_cov f).
Proof.
  destruct (thm_init_state f (cvPre v) cvE3 [] cvIp2 cv_reach (proj1 cvA3) eq_refl) as (e & E & H).
  { cbn. split; [discriminate|exact I]. }
  change (ip_queue cvIp2) with [exM 1] in H. cbv beta iota zeta in H. destruct H as (A1 & A2 & A3 & (us & T & A4) & A5 & A6 & A7 & A8 & A9 & A10).
  pose proof (InitState_spec [] cvE3 [] cvIp2 e (reach_ok _ _ _ cv_reach) (proj1 cvA3) eq_refl E) as SP. change (ip_queue cvIp2) with [exM 1] in SP. cbv beta iota in SP.
  destruct SP as (_ & _ & _ & _ & _ & _ & _ & W & _).
  exists e. split; [exact E|]. split; [exact A1|]. split.
  { rewrite A2. change (e_out cvE3) with (e_out (build f)). rewrite cvO0. reflexivity. }
  assert (rot (sX (e_state e)) = mid) as ER by (rewrite A5; reflexivity).
  assert (newest (concat us) = Some (Datatypes.inl (mkVM (8 / 10) v))) as EN.
  { change (e_corrs cvE3) with [CVel cvC3] in T. destruct us as [|u us]; [contradiction|]. destruct (e_corrs e) as [|c' cs']; [contradiction|]. cbn [took_all] in T. destruct T as [[T1 T2] T3].
    destruct us; [|destruct cs'; contradiction]. destruct u as [|x u]; [congruence|]. cbn in T1. injection T1 as <- T1. destruct u; [reflexivity|discriminate]. }
  rewrite EN in A4. destruct A4 as [A4 _]. split; [|auto]. rewrite A4, ER. cbn [r_vel vm_v]. destruct v. ring3.
Qed.
Lemma cv_protocol : protocol (build f) (cvOps v) /\ protocol (build f) (cvPre v ++ [OInitState []]) /\
  (forall s, In s (published is_init_op (build f) (cvOps v)) -> col (sX s) 0 = v) /\
  exists s, published any_op (build f) (cvPre v ++ [OInitState []]) = [s] /\ col (sX s) 0 = v /\ rot (sX s) = mid /\ wfp 2 s /\ sP s = bdiag 5 (start_cov f).
Proof.
  destruct cv_init as (e & E & A1 & A2 & A3 & A4 & W & A5).
  assert (forall x, est_step e (OImu (exM 2)) = Ok x -> e_enabled x = true) as HX.
  { intros x. cbn [est_step]. destruct (e_prop e); [|discriminate]. cbn [of_opt bind]. intros [= <-]. exact A1. }
  split; [|split; [|split]].
  - cbn [cvOps cvPre app protocol]. split; [exact cvA1|]. intros x X. rewrite cvS1 in X. injection X as <-. split; [exact I|]. intros x X. rewrite cvS2 in X. injection X as <-.
    split; [exact I|]. intros x X. rewrite cvS3 in X. injection X as <-. split; [exact cvA3|]. intros x X. rewrite step_init, E in X. injection X as <-.
    split; [exact I|]. intros x X. split; [apply HX; exact X|auto].
  - cbn [cvPre app protocol]. split; [exact cvA1|]. intros x X. rewrite cvS1 in X. injection X as <-. split; [exact I|]. intros x X. rewrite cvS2 in X. injection X as <-.
    split; [exact I|]. intros x X. rewrite cvS3 in X. injection X as <-. split; [exact cvA3|]. auto.
  - intros s. cbn [cvOps cvPre app published]. rewrite cvS1. cbn [is_init_op app]. rewrite cvS2. cbn [app]. rewrite cvS3. cbn [app]. rewrite step_init, E, A2.
    change (e_out cvE3) with (e_out (build f)). rewrite cvO0. cbn [length skipn app].
    destruct (est_step e (OImu (exM 2))) as [x|]; [destruct (est_step x (ORunOnce []))|]; cbn [app In]; intros [<-|[]]; exact A3.
  - exists (e_state e). split; [|auto]. cbn [cvPre app published]. rewrite cvS1. cbn [any_op]. change (e_out cvE1) with (e_out (build f)). rewrite cvO0. cbn [skipn length app].
    rewrite cvS2. change (e_out cvE2) with (e_out (build f)). change (e_out cvE1) with (e_out (build f)). rewrite cvO0. cbn [skipn length app].
    rewrite cvS3. change (e_out cvE3) with (e_out (build f)). change (e_out cvE2) with (e_out (build f)). rewrite cvO0. cbn [skipn length app].
    rewrite step_init, E, A2. reflexivity.
Qed.
End Run.

Lemma L2R_2 X : L2R 2 X = blk 5 (fun i j => if ((i <? 3) && (j <? 3))%nat then (if Nat.eqb i j then rot X else if Nat.eqb j 0 then crossm (col X (i - 1)) *m rot X else mzero)
  else if Nat.eqb i j then mid else mzero).
Proof.
  apply blk_eq; [reflexivity|reflexivity|]. intros i j Hi Hj. apply M3_ext. intros a b Ha Hb. rewrite mget_getM3 by auto.
  destruct (Nat.ltb_spec i 3) as [Hi3|Hi3]; [destruct (Nat.ltb_spec j 3) as [Hj3|Hj3]|]; cbn [andb].
  - rewrite L2R_blk by lia. reflexivity.
  - rewrite L2R_bias by lia. destruct (Nat.eqb_spec (3 * i + a) (3 * j + b)); [lia|]. destruct (Nat.eqb_spec i j); [lia|].
    destruct a as [|[|[|a]]]; try lia; destruct b as [|[|[|b]]]; try lia; reflexivity.
  - rewrite L2R_bias by lia. destruct (Nat.eqb_spec i j) as [->|N].
    + rewrite mget_id by auto. destruct (Nat.eqb_spec (3 * j + a) (3 * j + b)), (Nat.eqb_spec a b); try lia; reflexivity.
    + destruct (Nat.eqb_spec (3 * i + a) (3 * j + b)); [lia|]. destruct a as [|[|[|a]]]; try lia; destruct b as [|[|[|b]]]; try lia; reflexivity.
Qed.
(** with a non-zero initial velocity the very first published states do not describe the same estimate *)
Lemma thm_conv_refuted : exists f os sl sr, config_ok f /\ imu_stream (imus os) /\
  protocol (build (with_err f LeftInvariant)) os /\ protocol (build (with_err f RightInvariant)) os /\
  published any_op (build (with_err f LeftInvariant)) os = [sl] /\ published any_op (build (with_err f RightInvariant)) os = [sr] /\ ~ same_estimate sl sr.
Proof.
  set (v := mkV 1 0 0). destruct (cv_protocol LeftInvariant v) as (_ & P1 & _ & sl & E1 & V1 & R1 & W1 & C1).
  destruct (cv_protocol RightInvariant v) as (_ & P2 & _ & sr & E2 & V2 & R2 & W2 & C2).
  exists cvF, (cvPre v ++ [OInitState []]), sl, sr. split; [apply (cvF_ok LeftInvariant)|].
  split; [split; [repeat constructor; unfold qnorm2; cbn; ring|cbn; lra]|]. do 4 (split; [assumption|]).
  unfold same_estimate. intros E. apply (f_equal sP) in E. cbn [sP set_P] in E. rewrite C2 in E.
  destruct W1 as [[HX _ _ HP1 HP2] _ _ _ _]. rewrite (sek_cols _ _ HX) in E. change (3 + 2 - 3)%nat with 2%nat in E. unfold right_cov in E. rewrite C1 in E.
  apply (f_equal (fun M => getM3 M (3 * 1) (3 * 0))) in E. rewrite L2R_2 in E. unfold bdiag in E. rewrite blk_T, !blk_mult, !getM3_blk in E by lia.
  cbn [Nat.eqb Nat.ltb Nat.leb andb msum start_cov] in E. cbn [Nat.sub] in E. rewrite V1, R1 in E.
  apply (f_equal (fun M => mget M 2 1)) in E. revert E. unfold diag3, var_of. cbn. unfold crossm, v. cbn. lra.
Qed.
