(** The generated kinematics functions equal the serial chain of SpecKin. *)
From Coq Require Import Reals ZArith List Bool Arith Lia Lra.
From Verif Require Import Res Vec3 Mat Spec SpecFilter SpecProp KinGen Kinematics SpecKin.
Import ListNotations.
Local Open Scope R_scope.

Lemma cell_fresh (l : list (nat * R)) k (a : R) : ~ In k (map fst l) -> fold_left (fun acc w => if Nat.eqb (fst w) k then snd w else acc) l a = a.
Proof.
  revert a. induction l as [|w l IH]; intros a H; [reflexivity|]. cbn [fold_left]. cbn in H. destruct (Nat.eqb_spec (fst w) k); [tauto|]. apply IH. tauto.
Qed.
Lemma cell_seq : forall (l : list (nat * R)) s k, map fst l = seq s (length l) -> (s <= k < s + length l)%nat -> forall a : R, fold_left (fun acc w => if Nat.eqb (fst w) k then snd w else acc) l a = nth (k - s) (map snd l) 0.
Proof.
  induction l as [|w l IH]; intros s k H Hk a; [cbn in Hk; lia|]. cbn [length seq map] in H. injection H as H1 H2. cbn [fold_left length] in *. destruct (Nat.eqb_spec (fst w) k).
  - rewrite cell_fresh; [|rewrite H2, in_seq; lia]. replace (k - s)%nat with 0%nat by lia. reflexivity.
  - rewrite (IH (S s)) by (auto; lia). replace (k - s)%nat with (S (k - S s)) by lia. reflexivity.
Qed.
Lemma kin_fun_ok r c l : map fst l = seq 0 (r * c) -> kin_fun r c l = Ok (mk r c (fun i j => nth (j * r + i) (map snd l) 0)).
Proof.
  intros H. assert (length l = r * c)%nat as HL by (rewrite <- (map_length fst), H, seq_length; reflexivity). unfold kin_fun.
  assert (forallb (fun w => Nat.ltb (fst w) (r * c)) l = true) as ->.
  { apply forallb_forall. intros w Hw. apply Nat.ltb_lt. apply (in_map fst) in Hw. rewrite H in Hw. apply in_seq in Hw. lia. }
  assert (forallb (written l) (seq 0 (r * c)) = true) as ->.
  { apply forallb_forall. intros k Hk. unfold written. apply existsb_exists. rewrite <- H in Hk. apply in_map_iff in Hk. destruct Hk as (w & E & Hw). exists w. split; [auto|]. apply Nat.eqb_eq. auto. }
  f_equal. apply mat_ext; [reflexivity|reflexivity|]. intros i j Hi Hj. change (i < r)%nat in Hi. change (j < c)%nat in Hj. rewrite !ent_mk by auto. unfold cell. rewrite (cell_seq l 0).
  - f_equal. lia.
  - rewrite HL. exact H.
  - rewrite HL. nia.
Qed.
Ltac gen_trig := repeat match goal with |- context [cos ?x] => generalize (cos x); intros | |- context [sin ?x] => generalize (sin x); intros end.
Lemma p_eq l q : p_Body_to l q = Ok (ofV3 (foot_pos (leg_geom l) q)).
Proof.
  destruct l; unfold p_Body_to; rewrite kin_fun_ok by reflexivity; f_equal; (apply mat_ext; [reflexivity|reflexivity|]);
  intros i j Hi Hj; change (i < 3)%nat in Hi; change (j < 1)%nat in Hj; assert (j = 0)%nat as -> by lia; rewrite ent_mk, ent_ofV3 by lia;
  destruct i as [|[|[|i]]]; try lia;
  cbv [nth map snd Nat.mul Nat.add out_p_Body_to_FrontRightFoot out_p_Body_to_FrontLeftFoot out_p_Body_to_HindRightFoot out_p_Body_to_HindLeftFoot vget foot_pos leg_geom g_hip g_off g_thigh g_shank g_joint
    vadd mv rotx roty v0 v1 v2 m00 m01 m02 m10 m11 m12 m20 m21 m22]; rewrite ?cos_neg, ?sin_neg; gen_trig; field.
Qed.
(** ** velocity columns of the chain *)
Definition ex : V3 := mkV 1 0 0.
Definition ey : V3 := mkV 0 1 0.
Definition Rx (g : geom) (q : nat -> R) : M3 := rotx (q (g_joint g)).
Definition R1 (g : geom) (q : nat -> R) : M3 := roty (- q (1 + g_joint g)%nat).
Definition R2 (g : geom) (q : nat -> R) : M3 := roty (- q (2 + g_joint g)%nat).
Definition d2 (g : geom) : V3 := mkV 0 0 (- g_shank g).
Definition d1 (g : geom) (q : nat -> R) : V3 := mkV 0 0 (- g_thigh g) +v R2 g q *v d2 g.
Definition d0 (g : geom) (q : nat -> R) : V3 := mkV 0 (g_off g) 0 +v R1 g q *v d1 g q.
(** angular and linear velocity of the foot per unit rate of joint k *)
Definition wcol (g : geom) (q : nat -> R) (k : nat) : V3 := match k with O => ex | _ => vneg (Rx g q *v ey) end.
Definition pcol (g : geom) (q : nat -> R) (k : nat) : V3 :=
  match k with
  | O => cross ex (Rx g q *v d0 g q)
  | 1 => Rx g q *v vneg (cross ey (R1 g q *v d1 g q))
  | _ => Rx g q *v (R1 g q *v vneg (cross ey (R2 g q *v d2 g)))
  end.
Definition own (g : geom) (j : nat) : bool := (Nat.leb (g_joint g) j && Nat.ltb j (g_joint g + 3))%bool.
Definition cols3 (g : geom) (c : nat -> V3) : mat := mk 3 12 (fun i j => if own g j then vget (c (j - g_joint g)%nat) i else 0).
Definition cols6 (g : geom) (a b : nat -> V3) : mat :=
  mk 6 12 (fun i j => if own g j then (if Nat.ltb i 3 then vget (a (j - g_joint g)%nat) i else vget (b (j - g_joint g)%nat) (i - 3)) else 0).
Definition vscol g q k := pcol g q k -v cross (wcol g q k) (foot_pos g q).
Definition wbcol g q k := mtr (foot_rot g q) *v wcol g q k.
Definition vbcol g q k := mtr (foot_rot g q) *v pcol g q k.
Lemma sin2 x : sin x * sin x = 1 - cos x * cos x.
Proof. pose proof (sin2_cos2 x) as H. unfold Rsqr in H. lra. Qed.
Ltac ring_kin :=
  cbv [nth map snd Nat.mul Nat.add Nat.sub Nat.leb Nat.ltb andb own
    out_p_Body_to_FrontRightFoot out_p_Body_to_FrontLeftFoot out_p_Body_to_HindRightFoot out_p_Body_to_HindLeftFoot
    out_R_Body_to_FrontRightFoot out_R_Body_to_FrontLeftFoot out_R_Body_to_HindRightFoot out_R_Body_to_HindLeftFoot
    out_H_Body_to_FrontRightFoot out_H_Body_to_FrontLeftFoot out_H_Body_to_HindRightFoot out_H_Body_to_HindLeftFoot
    out_Jp_Body_to_FrontRightFoot out_Jp_Body_to_FrontLeftFoot out_Jp_Body_to_HindRightFoot out_Jp_Body_to_HindLeftFoot
    out_Js_Body_to_FrontRightFoot out_Js_Body_to_FrontLeftFoot out_Js_Body_to_HindRightFoot out_Js_Body_to_HindLeftFoot
    out_Jb_Body_to_FrontRightFoot out_Jb_Body_to_FrontLeftFoot out_Jb_Body_to_HindRightFoot out_Jb_Body_to_HindLeftFoot
    out_Jws_Body_to_FrontRightFoot out_Jws_Body_to_FrontLeftFoot out_Jws_Body_to_HindRightFoot out_Jws_Body_to_HindLeftFoot
    out_Jvs_Body_to_FrontRightFoot out_Jvs_Body_to_FrontLeftFoot out_Jvs_Body_to_HindRightFoot out_Jvs_Body_to_HindLeftFoot
    out_Jwb_Body_to_FrontRightFoot out_Jwb_Body_to_FrontLeftFoot out_Jwb_Body_to_HindRightFoot out_Jwb_Body_to_HindLeftFoot
    out_Jvb_Body_to_FrontRightFoot out_Jvb_Body_to_FrontLeftFoot out_Jvb_Body_to_HindRightFoot out_Jvb_Body_to_HindLeftFoot
    vget mget foot_pos foot_rot leg_geom g_hip g_off g_thigh g_shank g_joint wcol pcol vscol wbcol vbcol ex ey Rx R1 R2 d0 d1 d2
    vadd vsub vneg mv mtr mmul cross rotx roty v0 v1 v2 m00 m01 m02 m10 m11 m12 m20 m21 m22]; rewrite ?cos_neg, ?sin_neg;
  first [reflexivity|match goal with E0 : sin _ * sin _ = _, E1 : sin _ * sin _ = _, E2 : sin _ * sin _ = _ |- _ => field [E0 E1 E2] end].
Lemma R_eq l q : R_Body_to l q = Ok (ofM3 (foot_rot (leg_geom l) q)).
Proof.
  pose proof (sin2 (q (g_joint (leg_geom l)))) as E0; pose proof (sin2 (q (1 + g_joint (leg_geom l))%nat)) as E1; pose proof (sin2 (q (2 + g_joint (leg_geom l))%nat)) as E2;
  destruct l; cbv [leg_geom g_joint Nat.add] in E0, E1, E2; unfold R_Body_to; rewrite kin_fun_ok by reflexivity; f_equal; (apply mat_ext; [reflexivity|reflexivity|]);
  intros i j Hi Hj; change (i < 3)%nat in Hi; change (j < 3)%nat in Hj; rewrite ent_mk, ent_ofM3 by lia;
  destruct i as [|[|[|i]]]; try lia; destruct j as [|[|[|j]]]; try lia; ring_kin.
Qed.
Lemma Jp_eq l q : Jp_Body_to l q = Ok (cols3 (leg_geom l) (pcol (leg_geom l) q)).
Proof.
  pose proof (sin2 (q (g_joint (leg_geom l)))) as E0; pose proof (sin2 (q (1 + g_joint (leg_geom l))%nat)) as E1; pose proof (sin2 (q (2 + g_joint (leg_geom l))%nat)) as E2;
  destruct l; cbv [leg_geom g_joint Nat.add] in E0, E1, E2; unfold Jp_Body_to; rewrite kin_fun_ok by reflexivity; f_equal; (apply mat_ext; [reflexivity|reflexivity|]);
  intros i j Hi Hj; change (i < 3)%nat in Hi; change (j < 12)%nat in Hj; unfold cols3; rewrite !ent_mk by lia;
  destruct i as [|[|[|i]]]; try lia; destruct j as [|[|[|[|[|[|[|[|[|[|[|[|j]]]]]]]]]]]]; try lia; ring_kin.
Qed.
Lemma Js_eq l q : Js_Body_to l q = Ok (cols6 (leg_geom l) (wcol (leg_geom l) q) (vscol (leg_geom l) q)).
Proof.
  pose proof (sin2 (q (g_joint (leg_geom l)))) as E0; pose proof (sin2 (q (1 + g_joint (leg_geom l))%nat)) as E1; pose proof (sin2 (q (2 + g_joint (leg_geom l))%nat)) as E2;
  destruct l; cbv [leg_geom g_joint Nat.add] in E0, E1, E2; unfold Js_Body_to; rewrite kin_fun_ok by reflexivity; f_equal; (apply mat_ext; [reflexivity|reflexivity|]);
  intros i j Hi Hj; change (i < 6)%nat in Hi; change (j < 12)%nat in Hj; unfold cols6; rewrite !ent_mk by lia;
  destruct i as [|[|[|[|[|[|i]]]]]]; try lia; destruct j as [|[|[|[|[|[|[|[|[|[|[|[|j]]]]]]]]]]]]; try lia; ring_kin.
Qed.
Lemma Jws_eq l q : Jws_Body_to l q = Ok (cols3 (leg_geom l) (wcol (leg_geom l) q)).
Proof.
  pose proof (sin2 (q (g_joint (leg_geom l)))) as E0; pose proof (sin2 (q (1 + g_joint (leg_geom l))%nat)) as E1; pose proof (sin2 (q (2 + g_joint (leg_geom l))%nat)) as E2;
  destruct l; cbv [leg_geom g_joint Nat.add] in E0, E1, E2; unfold Jws_Body_to; rewrite kin_fun_ok by reflexivity; f_equal; (apply mat_ext; [reflexivity|reflexivity|]);
  intros i j Hi Hj; change (i < 3)%nat in Hi; change (j < 12)%nat in Hj; unfold cols3; rewrite !ent_mk by lia;
  destruct i as [|[|[|i]]]; try lia; destruct j as [|[|[|[|[|[|[|[|[|[|[|[|j]]]]]]]]]]]]; try lia; ring_kin.
Qed.
Lemma Jvs_eq l q : Jvs_Body_to l q = Ok (cols3 (leg_geom l) (vscol (leg_geom l) q)).
Proof.
  pose proof (sin2 (q (g_joint (leg_geom l)))) as E0; pose proof (sin2 (q (1 + g_joint (leg_geom l))%nat)) as E1; pose proof (sin2 (q (2 + g_joint (leg_geom l))%nat)) as E2;
  destruct l; cbv [leg_geom g_joint Nat.add] in E0, E1, E2; unfold Jvs_Body_to; rewrite kin_fun_ok by reflexivity; f_equal; (apply mat_ext; [reflexivity|reflexivity|]);
  intros i j Hi Hj; change (i < 3)%nat in Hi; change (j < 12)%nat in Hj; unfold cols3; rewrite !ent_mk by lia;
  destruct i as [|[|[|i]]]; try lia; destruct j as [|[|[|[|[|[|[|[|[|[|[|[|j]]]]]]]]]]]]; try lia; ring_kin.
Qed.
Definition mkH (A : M3) (p : V3) : mat :=
  mk 4 4 (fun i j => if Nat.ltb i 3 then (if Nat.ltb j 3 then mget A i j else vget p i) else if Nat.eqb j 3 then 1 else 0).
Lemma H_eq l q : H_Body_to l q = Ok (mkH (foot_rot (leg_geom l) q) (foot_pos (leg_geom l) q)).
Proof.
  pose proof (sin2 (q (g_joint (leg_geom l)))) as E0; pose proof (sin2 (q (1 + g_joint (leg_geom l))%nat)) as E1; pose proof (sin2 (q (2 + g_joint (leg_geom l))%nat)) as E2;
  destruct l; cbv [leg_geom g_joint Nat.add] in E0, E1, E2; unfold H_Body_to; rewrite kin_fun_ok by reflexivity; f_equal; (apply mat_ext; [reflexivity|reflexivity|]);
  intros i j Hi Hj; change (i < 4)%nat in Hi; change (j < 4)%nat in Hj; unfold mkH; rewrite !ent_mk by lia;
  destruct i as [|[|[|[|i]]]]; try lia; destruct j as [|[|[|[|j]]]]; try lia; cbn [Nat.eqb]; ring_kin.
Qed.
