(** The generated body Jacobians equal the chain's. *)
From Coq Require Import Reals ZArith List Bool Arith Lia Lra.
From Verif Require Import Res Vec3 Mat Spec SpecFilter SpecProp KinGen Kinematics SpecKin KinEq.
Import ListNotations.
Local Open Scope R_scope.
Lemma Jb_eq l q : Jb_Body_to l q = Ok (cols6 (leg_geom l) (wbcol (leg_geom l) q) (vbcol (leg_geom l) q)).
Proof.
  pose proof (sin2 (q (g_joint (leg_geom l)))) as E0; pose proof (sin2 (q (1 + g_joint (leg_geom l))%nat)) as E1; pose proof (sin2 (q (2 + g_joint (leg_geom l))%nat)) as E2;
  destruct l; cbv [leg_geom g_joint Nat.add] in E0, E1, E2; unfold Jb_Body_to; rewrite kin_fun_ok by reflexivity; f_equal; (apply mat_ext; [reflexivity|reflexivity|]);
  intros i j Hi Hj; change (i < 6)%nat in Hi; change (j < 12)%nat in Hj; unfold cols6; rewrite !ent_mk by lia;
  destruct i as [|[|[|[|[|[|i]]]]]]; try lia; destruct j as [|[|[|[|[|[|[|[|[|[|[|[|j]]]]]]]]]]]]; try lia; ring_kin.
Qed.
Lemma Jwb_eq l q : Jwb_Body_to l q = Ok (cols3 (leg_geom l) (wbcol (leg_geom l) q)).
Proof.
  pose proof (sin2 (q (g_joint (leg_geom l)))) as E0; pose proof (sin2 (q (1 + g_joint (leg_geom l))%nat)) as E1; pose proof (sin2 (q (2 + g_joint (leg_geom l))%nat)) as E2;
  destruct l; cbv [leg_geom g_joint Nat.add] in E0, E1, E2; unfold Jwb_Body_to; rewrite kin_fun_ok by reflexivity; f_equal; (apply mat_ext; [reflexivity|reflexivity|]);
  intros i j Hi Hj; change (i < 3)%nat in Hi; change (j < 12)%nat in Hj; unfold cols3; rewrite !ent_mk by lia;
  destruct i as [|[|[|i]]]; try lia; destruct j as [|[|[|[|[|[|[|[|[|[|[|[|j]]]]]]]]]]]]; try lia; ring_kin.
Qed.
Lemma Jvb_eq l q : Jvb_Body_to l q = Ok (cols3 (leg_geom l) (vbcol (leg_geom l) q)).
Proof.
  pose proof (sin2 (q (g_joint (leg_geom l)))) as E0; pose proof (sin2 (q (1 + g_joint (leg_geom l))%nat)) as E1; pose proof (sin2 (q (2 + g_joint (leg_geom l))%nat)) as E2;
  destruct l; cbv [leg_geom g_joint Nat.add] in E0, E1, E2; unfold Jvb_Body_to; rewrite kin_fun_ok by reflexivity; f_equal; (apply mat_ext; [reflexivity|reflexivity|]);
  intros i j Hi Hj; change (i < 3)%nat in Hi; change (j < 12)%nat in Hj; unfold cols3; rewrite !ent_mk by lia;
  destruct i as [|[|[|i]]]; try lia; destruct j as [|[|[|[|[|[|[|[|[|[|[|[|j]]]]]]]]]]]]; try lia; ring_kin.
Qed.
