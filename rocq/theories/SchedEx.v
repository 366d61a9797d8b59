(** Examples for C80. *)
From Coq Require Import Reals ZArith List Bool Lia Lra.
From Verif Require Import Res Vec3 Mat RobotState Imu Propagation VelCorr LegCorr Estimator SpecEst EstSafe EstPub EstEx ObsThms ClearEx ClearThms SpecConv SpecSched Sched SchedMore.
Import ListNotations.
Local Open Scope R_scope.

Lemma ex_full : exists e, reachable exF exOps e.
Proof.
  destruct ex_states as (e4 & e5 & e6 & e7 & e8 & R3 & S4 & S5 & S6 & S7 & S8 & _). exists e8. split; [exact exF_ok|]. split; [exact exStream|]. split; [exact exProtocol|].
  unfold exOps. apply (run_app _ _ _ _ _ R3). apply (run_two _ _ e4); [exact S4|]. apply (run_two _ _ _ _ _ S5). apply (run_two _ _ e6); [exact S6|]. apply (run_two _ _ _ _ _ S7). apply run_one. exact S8.
Qed.
Lemma imus_readers_app os : imus (os ++ [OLogPop; OLogWrite; OPopOut]) = imus os.
Proof. rewrite imus_app. cbn. apply app_nil_r. Qed.
Lemma append_readers f os e : reachable f os e -> exists e', reachable f (os ++ [OLogPop; OLogWrite; OPopOut]) e'.
Proof.
  intros (HC & HI & HP & HR). assert (est_ok [] e) as H0.
  { pose proof (run_safe os (build f) (build_ok f (imus os) HC HI) HP) as RS. rewrite HR in RS. exact RS. }
  destruct (step_safe [] e OLogPop H0 I) as [(e1 & E1 & H1)|(_ & l & X & _)]; [|discriminate].
  destruct (step_safe [] e1 OLogWrite H1 I) as [(e2 & E2 & H2)|(_ & l & X & _)]; [|discriminate].
  destruct (step_safe [] e2 OPopOut H2 I) as [(e3 & E3 & H3)|(_ & l & X & _)]; [|discriminate].
  exists e3. split; [exact HC|]. split; [rewrite imus_readers_app; exact HI|]. split.
  - apply protocol_app; [exact HP|]. intros e' _. split; [exact I|]. intros ? _. split; [exact I|]. intros ? _. split; [exact I|]. intros ? _. exact I.
  - apply (run_app _ _ _ _ _ HR). apply (run_two _ _ _ _ _ E1). apply (run_two _ _ _ _ _ E2). apply run_one. exact E3.
Qed.
Lemma ex_readers : exists e, reachable exF (exOps ++ [OLogPop; OLogWrite; OPopOut]) e /\ without_readers (exOps ++ [OLogPop; OLogWrite; OPopOut]) = exOps.
Proof. destruct ex_full as [e R]. destruct (append_readers _ _ _ R) as [e' R']. exists e'. split; [exact R'|reflexivity]. Qed.
Definition exMixed : list op :=
  [OVel 0 (exV (8 / 10)); OInitBias; OImu (exM 1); OInitState []; OImu (exM 2); ORunOnce []; OVel 0 (exV (9 / 10)); ORunOnce []; OPopOut; OLogPop; OLogWrite].
Lemma ex_interleaving : exists os os' e, reachable exF os e /\ same_per_resource os os' /\ os <> os' /\
  os = exOps ++ [OLogPop; OLogWrite; OPopOut] /\ hd_error os' = Some (OVel 0 (exV (8 / 10))).
Proof.
  destruct ex_readers as (e & R & _). exists (exOps ++ [OLogPop; OLogWrite; OPopOut]), exMixed, e. split; [exact R|]. split; [|split; [discriminate|split; reflexivity]].
  intros r. destruct r as [| |[|i]|i| | |]; reflexivity.
Qed.
Lemma started_out e l e' : InitState e l = Ok e' -> e_enabled e = false -> e_enabled e' = true -> e_out e' <> [].
Proof.
  unfold InitState. intros S4 H0 P3. destruct (e_prop e) as [ip|]; [|discriminate]. cbn [of_opt bind] in S4. destruct (set_initial_state ip (e_state e)) as [[[b ip'] s]|]; [|discriminate]. cbn [bind] in S4. destruct b; cbn [negb] in S4.
  - destruct (spin_all (e_corrs e) s l) as [[cs s1]|]; [|discriminate]. cbn [bind] in S4.
    repeat (match type of S4 with bind ?x _ = _ => destruct x; [cbn [bind] in S4|discriminate] end). injection S4 as <-. cbn [e_out e_set]. destruct (e_out e); discriminate.
  - exfalso. injection S4 as <-. cbn [e_set e_enabled] in P3. congruence.
Qed.
Lemma ex_queue e m e' : est_step e (OImu m) = Ok e' -> imu_queue e' <> [].
Proof. cbn [est_step]. destruct (e_prop e) as [ip|]; [|discriminate]. cbn [of_opt bind]. intros [= <-]. cbn. destruct (ip_queue ip); discriminate. Qed.
Lemma ex_not_starved : exists os e e', reachable exF os e /\ not_starved e (OImu (exM 3)) /\ not_starved e OPopOut /\ est_run e [OImu (exM 3); ORunOnce []] = Ok e'.
Proof.
  destruct ex_states as (e4 & e5 & e6 & e7 & e8 & R3 & S4 & S5 & S6 & S7 & S8 & P3 & P4 & _).
  set (os := exPre ++ [OInitState []; OImu (exM 2)]).
  assert (est_run (build exF) os = Ok e5) as R5. { unfold os. apply (run_app _ _ _ _ _ R3). apply (run_two _ _ e4); [exact S4|]. apply run_one. exact S5. }
  assert (os ++ [ORunOnce []; OVel 0 (exV (9 / 10)); ORunOnce []] = exOps) as EO by reflexivity.
  assert (protocol (build exF) os) as HP. { pose proof exProtocol as P. rewrite <- EO in P. exact (protocol_prefix _ _ _ P). }
  assert (imu_stream (imus os ++ [exM 3])) as HS. { split; [repeat (apply Forall_cons; [unfold SpecProp.qnorm2; cbn; ring|]); apply Forall_nil|]. cbn. lra. }
  exists os, e5.
  assert (est_ok [exM 3] e5) as H5.
  { apply (run_prefix os [OImu (exM 3)] (build exF) e5); [|apply protocol_app; [exact HP|intros ? _; split; [exact I|intros ? _; exact I]]|exact R5]. rewrite imus_app. apply build_ok; [exact exF_ok|exact HS]. }
  destruct (step_safe [] e5 (OImu (exM 3)) H5 I) as [(e9 & E9 & H9)|(_ & l & X & _)]; [|discriminate].
  assert (e_enabled e9 = true) as A9. { destruct (callback_keeps e5 (OImu (exM 3)) e9 eq_refl E9) as [K _]. congruence. }
  destruct (step_safe [] e9 (ORunOnce []) H9 A9) as [(e10 & E10 & _)|(_ & l & X & _)]; [|discriminate].
  exists e10. split; [|split; [|split]].
  - split; [exact exF_ok|]. split; [|split; [exact HP|exact R5]]. destruct HS as [HS1 HS2]. apply Forall_app in HS1. split; [apply HS1|]. cbn. lra.
  - exact (ex_queue _ _ _ S5).
  - cbn [not_starved]. rewrite (out_keeps e4 (OImu (exM 2)) e5 eq_refl S5). apply (started_out exE3 [] e4 S4); [apply exA3|exact P3].
  - apply (run_two _ _ _ _ _ E9). apply run_one. exact E10.
Qed.
Lemma ex_during : exists e e', reachable exF (exPre ++ [OInitState []; OImu (exM 2); ORunOnce []; ORunOnce [mkArr [[exV (9 / 10)]] []]]) e' /\
  est_run (build exF) exOps = Ok e' /\ reachable exF (exPre ++ [OInitState []; OImu (exM 2); ORunOnce []]) e /\ e' <> e.
Proof.
  destruct ex_states as (e4 & e5 & e6 & e7 & e8 & R3 & S4 & S5 & S6 & S7 & S8 & P3 & P4 & P5 & O6 & O8 & T6 & T8 & _).
  set (os := exPre ++ [OInitState []; OImu (exM 2); ORunOnce []]).
  assert (est_run (build exF) os = Ok e6) as R6. { unfold os. apply (run_app _ _ _ _ _ R3). apply (run_two _ _ e4); [exact S4|]. apply (run_two _ _ _ _ _ S5). apply run_one. exact S6. }
  assert (os ++ [OVel 0 (exV (9 / 10)); ORunOnce []] = exOps) as EO by reflexivity.
  assert (protocol (build exF) os) as HP. { pose proof exProtocol as P. rewrite <- EO in P. exact (protocol_prefix _ _ _ P). }
  assert (est_run e6 [ORunOnce [mkArr [[exV (9 / 10)]] []]] = Ok e8) as R8.
  { destruct (thm_early_vel e6 0 (exV (9 / 10)) []) as [X _]. change (at_arr 0 (add_arr_vel (exV (9 / 10))) []) with [mkArr [[exV (9 / 10)]] []] in X. rewrite <- X. apply (run_two _ _ _ _ _ S7). apply run_one. exact S8. }
  assert (e_enabled e6 = true) as A6. { destruct (callback_keeps e6 (OVel 0 (exV (9 / 10))) e7 eq_refl S7) as [K _]. congruence. }
  exists e6, e8. split; [|split; [|split]].
  - change (exPre ++ [OInitState []; OImu (exM 2); ORunOnce []; ORunOnce [mkArr [[exV (9 / 10)]] []]]) with (os ++ [ORunOnce [mkArr [[exV (9 / 10)]] []]]).
    split; [exact exF_ok|]. split; [exact exStream|]. split; [|exact (run_app _ _ _ _ _ R6 R8)]. apply protocol_app; [exact HP|]. intros e' E'. rewrite R6 in E'. assert (e' = e6) by congruence. subst e'. split; [exact A6|]. intros ? _. exact I.
  - rewrite <- EO. apply (run_app _ _ _ _ _ R6). apply (run_two _ _ _ _ _ S7). apply run_one. exact S8.
  - split; [exact exF_ok|]. split; [exact exStream|]. split; [exact HP|exact R6].
  - intros E. rewrite E in T8. rewrite T6 in T8. injection T8 as T8. lra.
Qed.
