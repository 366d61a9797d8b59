(** Property C44: time stamps. *)
From Coq Require Import Reals ZArith Lia Lra.
From Verif Require Import Ros Stamp SpecStamp StampThms.
Local Open Scope R_scope.

(** C44: the conversion in binary64 preserves the order of stamps. *)
Theorem C44_order_preserved : forall s1 s2, stamp_ok s1 -> stamp_ok s2 -> (ns s1 <= ns s2)%Z -> double_time s1 <= double_time s2.
Proof. exact thm_stamp_monotone. Qed.
Print Assumptions C44_order_preserved.
(** the error is below a quarter of a microsecond, at any date *)
Theorem C44_error_bound : forall s, stamp_ok s -> Rabs (double_time s - IZR (ns s) / 1000000000) <= 239 / 1000000000.
Proof. exact thm_stamp_error. Qed.
Print Assumptions C44_error_bound.
(** Full claim: distinct stamps stay distinct.  Proved for stamps half a microsecond apart. *)
Theorem C44_distinct_partial : forall s1 s2, stamp_ok s1 -> stamp_ok s2 -> (ns s1 + 500 <= ns s2)%Z -> double_time s1 < double_time s2.
Proof. exact thm_stamp_strict. Qed.
Print Assumptions C44_distinct_partial.
(** The full claim is false: present-day stamps 100 ns apart collide. *)
Theorem C44_distinct_refuted : exists s1 s2, stamp_ok s1 /\ stamp_ok s2 /\ (ns s1 < ns s2)%Z /\ double_time s1 = double_time s2.
Proof. exact thm_stamp_refuted. Qed.
Print Assumptions C44_distinct_refuted.
Example C44_example : stamp_ok (mkStamp 1700000000 0) /\ stamp_ok (mkStamp 1700000000 500) /\ (ns (mkStamp 1700000000 0) + 500 <= ns (mkStamp 1700000000 500))%Z.
Proof. unfold stamp_ok, ns. cbn. lia. Qed.
