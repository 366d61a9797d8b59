(** Proofs: C76 — [world_move] is the infinitesimal version of [moved]. *)
From Coq Require Import Reals ZArith List Bool Arith Lia Lra.
From Coquelicot Require Import Coquelicot.
From Verif Require Import Res Vec3 Mat MatInv Psd Spec LieGroup LieSO3 LieSEK RobotState SpecFilter SpecObs Obs ObsThms.
Import ListNotations.
Local Open Scope R_scope.
(** ** world_move is the direction of [moved] *)
Lemma sub_move K w a i : (i < 3 + 3 * K)%nat -> ent (sub (world_move K w a) 0 0 (3 + 3 * K) 1) i 0 = ent (world_move K w a) i 0.
Proof. intros H. unfold sub. rewrite ent_mk by lia. reflexivity. Qed.
Lemma move_vec K w a : getV3 (sub (world_move K w a) 0 0 (3 + 3 * K) 1) 0 0 = mkV 0 0 w /\
  forall k, (k < K)%nat -> getV3 (sub (world_move K w a) 0 0 (3 + 3 * K) 1) (3 + 3 * k) 0 = if Nat.eqb k 0 then vzero else a.
Proof.
  split.
  - rewrite <- (rot_of_move K w a). apply V3_ext. intros r Hr. unfold getV3. rewrite !vget_mk by lia. apply sub_move. lia.
  - intros k Hk. apply V3_ext. intros r Hr. unfold getV3. rewrite vget_mk by lia. rewrite sub_move by lia. destruct (Nat.eqb_spec k 0) as [->|Hne].
    + unfold world_move. rewrite ent_mk by lia. destruct r as [|[|[|]]]; try lia; reflexivity.
    + apply move_pos; lia.
Qed.
Ltac dv := apply is_derive_Reals; auto_derive; [auto|].
Lemma dlim_rot (M : M3) (w : R) i j : (i < 3)%nat -> (j < 3)%nat -> derivable_pt_lim (fun t => mget (rotz (t * w) *m M) i j) 0 (mget (skew (mkV 0 0 w) *m M) i j).
Proof.
  intros Hi Hj. destruct M. destruct i as [|[|[|]]]; try lia; destruct j as [|[|[|]]]; try lia; cbn; dv; rewrite ?Rmult_0_l, ?sin_0, ?cos_0; ring.
Qed.
Lemma dlim_col (x : V3) (w : R) (a : V3) (b : bool) i : (i < 3)%nat ->
  derivable_pt_lim (fun t => vget (rotz (t * w) *v x +v (if b then vzero else t *s a)) i) 0 (vget (skew (mkV 0 0 w) *v x +v 1 *s (if b then vzero else a)) i).
Proof.
  intros Hi. destruct x, a, b; destruct i as [|[|[|]]]; try lia; cbn; dv; rewrite ?Rmult_0_l, ?sin_0, ?cos_0; ring.
Qed.
Lemma dlim_ext (f g : R -> R) l : (forall t, f t = g t) -> derivable_pt_lim f 0 l -> derivable_pt_lim g 0 l.
Proof. intros H D eps He. destruct (D eps He) as [d Hd]. exists d. intros h H1 H2. rewrite <- !H. apply Hd; auto. Qed.
Lemma thm_direction K X w a i j : SEK K X -> (i < 3 + K)%nat -> (j < 3 + K)%nat ->
  derivable_pt_lim (fun t => ent (moved K (t * w) (t *s a) X) i j) 0 (ent (hat K (sub (world_move K w a) 0 0 (3 + 3 * K) 1) *M X) i j).
Proof.
  intros HX Hi Hj. destruct (move_vec K w a) as [M0 M1].
  rewrite hat_aff by reflexivity. rewrite M0. match goal with |- derivable_pt_lim _ _ (ent (?A *M X) i j) => replace (A *M X) with (A *M sek K (rot X) (col X)) by (rewrite <- (SEK_form K X HX); reflexivity) end. rewrite aff_mult.
  destruct (le_lt_dec 3 i) as [Li|Li].
  - rewrite ent_aff_bot by lia. apply (dlim_ext (fun _ => if Nat.eqb i j then 1 else 0)).
    + intros t. unfold moved. rewrite ent_mk by lia. destruct (Nat.ltb_spec i 3); [lia|reflexivity].
    + replace (if Nat.eqb i j then 0 * 1 else 0) with 0 by (destruct (Nat.eqb i j); ring). apply derivable_pt_lim_const.
  - destruct (le_lt_dec 3 j) as [Lj|Lj].
    + replace j with (3 + (j - 3))%nat by lia. set (k := (j - 3)%nat) in *. rewrite ent_aff_col by lia. rewrite M1 by lia.
      eapply dlim_ext; [|apply (dlim_col (col X k) w a (Nat.eqb k 0) i Li)]. intros t. unfold moved. rewrite ent_mk by lia.
      destruct (Nat.ltb_spec i 3); [|lia]. destruct (Nat.ltb_spec (3 + k) 3); [lia|]. replace (3 + k - 3)%nat with k by lia.
      destruct (Nat.eqb_spec (3 + k) 3), (Nat.eqb_spec k 0); try lia; reflexivity.
    + rewrite ent_aff_rot by lia. eapply dlim_ext; [|apply (dlim_rot (rot X) w i j Li Lj)]. intros t. unfold moved. rewrite ent_mk by lia.
      destruct (Nat.ltb_spec i 3); [|lia]. destruct (Nat.ltb_spec j 3); [|lia]. reflexivity.
Qed.
