(** The circle solves the equations of motion (derivatives by Coquelicot, kept apart). *)
From Coq Require Import Reals List Arith Lia Lra.
From Coquelicot Require Import Coquelicot.
From Verif Require Import Vec3 Spec LieGroup SpecProp SpecObs SpecTrack.
Local Open Scope R_scope.

Lemma circle_drives V w t0 t d : w <> 0 -> drives (mkV 0 0 w) (mkV 0 (V * w) (98 / 10)) d (circle V w t0 t) (circle V w t0 (t + d)).
Proof.
  intros Hw. exists (fun s => po_R (circle V w t0 (t + s))), (fun s => po_v (circle V w t0 (t + s))), (fun s => po_p (circle V w t0 (t + s))).
  split; [|split; [rewrite Rplus_0_r; reflexivity|reflexivity]].
  intros s. split; [|split].
  - intros i j Hi Hj. destruct i as [|[|[|]]]; [| | |lia]; (destruct j as [|[|[|]]]; [| | |lia]); cbn; (apply is_derive_Reals; auto_derive; [auto|]); replace (t + s + - t0) with (t + s - t0) by ring; ring.
  - intros i Hi. destruct i as [|[|[|]]]; [| | |lia]; cbn; (apply is_derive_Reals; auto_derive; [auto|]); replace (t + s + - t0) with (t + s - t0) by ring; field; auto.
  - intros i Hi. destruct i as [|[|[|]]]; [| | |lia]; cbn; (apply is_derive_Reals; auto_derive; [auto|]); replace (t + s + - t0) with (t + s - t0) by ring; field; auto.
Qed.
