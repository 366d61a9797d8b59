(** Proofs about stamps in binary64. *)
From Coq Require Import Reals ZArith Lia Lra.
From Flocq Require Import Core.
From Verif Require Import Ros Stamp SpecStamp.
Local Open Scope R_scope.

Local Notation fexp := (FLT_exp (-1074) 53).
#[local] Instance prec53 : Prec_gt_0 53. Proof. reflexivity. Qed.
Lemma rnd_le x y : x <= y -> rnd64 x <= rnd64 y.
Proof. apply round_le; typeclasses eauto. Qed.
Lemma int_format n : (Z.abs n < 2 ^ 53)%Z -> generic_format radix2 fexp (IZR n).
Proof.
  intros H. apply generic_format_FLT. exists (Float radix2 n 0); cbn; [unfold F2R; cbn; ring|exact H|lia].
Qed.
Lemma rnd_int n : (Z.abs n < 2 ^ 53)%Z -> rnd64 (IZR n) = IZR n.
Proof. intros H. apply round_generic; [typeclasses eauto|apply int_format; exact H]. Qed.
Lemma frac_bounds s : stamp_ok s -> 0 <= rnd64 (IZR (nsec s) / 1000000000) <= 1.
Proof.
  intros [_ [H1 H2]]. apply IZR_le in H1. apply IZR_lt in H2. split.
  - rewrite <- (rnd_int 0) by reflexivity. apply rnd_le. lra.
  - rewrite <- (rnd_int 1) by reflexivity. apply rnd_le. lra.
Qed.
Lemma thm_stamp_monotone s1 s2 : stamp_ok s1 -> stamp_ok s2 -> (ns s1 <= ns s2)%Z -> double_time s1 <= double_time s2.
Proof.
  intros O1 O2 H. unfold double_time. apply rnd_le. unfold ns in H. destruct (Z.eq_dec (sec s1) (sec s2)) as [E|E].
  - rewrite E. apply Rplus_le_compat_l. apply rnd_le. apply Rmult_le_compat_r; [lra|]. apply IZR_le. nia.
  - assert (sec s1 + 1 <= sec s2)%Z as L by (destruct O1, O2; nia). apply IZR_le in L. rewrite plus_IZR in L. pose proof (frac_bounds s1 O1). pose proof (frac_bounds s2 O2). lra.
Qed.
Lemma half_ulp x e : Rabs x < bpow radix2 e -> (-1021 <= e)%Z -> Rabs (rnd64 x - x) <= / 2 * bpow radix2 (e - 53).
Proof.
  intros H HE. unfold rnd64. destruct (Req_dec x 0) as [->|NZ].
  - rewrite round_0 by typeclasses eauto. rewrite Rminus_0_r, Rabs_R0. apply Rmult_le_pos; [lra|apply bpow_ge_0].
  - eapply Rle_trans; [apply error_le_half_ulp; typeclasses eauto|]. apply Rmult_le_compat_l; [lra|]. rewrite ulp_neq_0 by exact NZ. apply bpow_le. unfold cexp, FLT_exp.
    pose proof (mag_le_bpow radix2 x e NZ H). lia.
Qed.
Lemma thm_stamp_error s : stamp_ok s -> Rabs (double_time s - IZR (ns s) / 1000000000) <= 239 / 1000000000.
Proof.
  intros O. pose proof (frac_bounds s O) as F. destruct O as [[A1 A2] [B1 B2]]. unfold double_time. set (f := rnd64 (IZR (nsec s) / 1000000000)) in *.
  assert (Rabs (f - IZR (nsec s) / 1000000000) <= / 2 * bpow radix2 (1 - 53)) as E1.
  { apply half_ulp; [|lia]. apply IZR_le in B1. apply IZR_lt in B2. rewrite Rabs_pos_eq by lra. change (bpow radix2 1) with 2. lra. }
  apply IZR_le in A1. assert (sec s <= 4294967295)%Z as A3 by lia. apply IZR_le in A3.
  assert (Rabs (rnd64 (IZR (sec s) + f) - (IZR (sec s) + f)) <= / 2 * bpow radix2 (32 - 53)) as E2.
  { destruct (Rlt_dec (IZR (sec s) + f) (bpow radix2 32)) as [L|L].
    - apply half_ulp; [|lia]. rewrite Rabs_pos_eq by lra. exact L.
    - assert (IZR (sec s) + f = IZR 4294967296) as Q by (change (bpow radix2 32) with 4294967296 in L; lra). rewrite Q, rnd_int by (cbn; lia). unfold Rminus. rewrite Rplus_opp_r, Rabs_R0. apply Rmult_le_pos; [lra|apply bpow_ge_0]. }
  unfold ns. rewrite plus_IZR, mult_IZR.
  replace (rnd64 (IZR (sec s) + f) - (IZR (sec s) * 1000000000 + IZR (nsec s)) / 1000000000) with ((rnd64 (IZR (sec s) + f) - (IZR (sec s) + f)) + (f - IZR (nsec s) / 1000000000)) by field.
  eapply Rle_trans; [apply Rabs_triang|]. eapply Rle_trans; [apply Rplus_le_compat; eassumption|].
  change (1 - 53)%Z with (-52)%Z. change (32 - 53)%Z with (-21)%Z. cbn. lra.
Qed.
Lemma thm_stamp_strict s1 s2 : stamp_ok s1 -> stamp_ok s2 -> (ns s1 + 500 <= ns s2)%Z -> double_time s1 < double_time s2.
Proof.
  intros O1 O2 H. pose proof (thm_stamp_error s1 O1) as E1. pose proof (thm_stamp_error s2 O2) as E2. apply Rabs_le_inv in E1, E2. apply IZR_le in H. rewrite plus_IZR in H. lra.
Qed.
Lemma thm_stamp_refuted : exists s1 s2, stamp_ok s1 /\ stamp_ok s2 /\ (ns s1 < ns s2)%Z /\ double_time s1 = double_time s2.
Proof.
  exists (mkStamp 1700000000 0), (mkStamp 1700000000 100). unfold stamp_ok, ns. cbn [sec nsec]. split; [lia|]. split; [lia|]. split; [lia|].
  assert (stamp_ok (mkStamp 1700000000 0)) as O0 by (unfold stamp_ok; cbn; lia). assert (stamp_ok (mkStamp 1700000000 100)) as O1 by (unfold stamp_ok; cbn; lia).
  assert (double_time (mkStamp 1700000000 0) = IZR 1700000000) as Z0.
  { unfold double_time. cbn [sec nsec]. replace (0 / 1000000000) with 0 by field. rewrite (rnd_int 0) by reflexivity. rewrite Rplus_0_r. apply rnd_int. cbn. lia. }
  rewrite Z0. apply Rle_antisym.
  - rewrite <- Z0. apply thm_stamp_monotone; auto. unfold ns. cbn. lia.
  - unfold double_time. cbn [sec nsec]. unfold rnd64 at 1. apply round_N_le_midp; [typeclasses eauto|apply int_format; cbn; lia|].
    assert (bpow radix2 (-22) <= ulp radix2 fexp (IZR 1700000000)) as U.
    { rewrite ulp_neq_0 by (apply not_eq_sym, Rlt_not_eq; lra). apply bpow_le. unfold cexp, FLT_exp. assert (30 < mag radix2 (IZR 1700000000))%Z; [|lia]. apply mag_gt_bpow. rewrite Rabs_pos_eq by lra. change (bpow radix2 30) with 1073741824. lra. }
    rewrite succ_eq_pos by lra. change (bpow radix2 (-22)) with (/ 4194304) in U.
    assert (Rabs (rnd64 (100 / 1000000000) - 100 / 1000000000) <= / 2 * bpow radix2 (1 - 53)) as E1 by (apply half_ulp; [rewrite Rabs_pos_eq by lra; change (bpow radix2 1) with 2; lra|lia]).
    apply Rabs_le_inv in E1. change (bpow radix2 (1 - 53)) with (/ 4503599627370496) in E1. lra.
Qed.
