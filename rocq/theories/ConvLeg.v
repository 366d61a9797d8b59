(** Proofs: adding and removing contacts does not depend on the error convention. *)
From Coq Require Import Reals ZArith List Bool Lia Lra.
From Verif Require Import Res Vec3 Mat LieGroup MatInv Psd Spec SpecState LieSO3 LieSEK LieThms RobotState StateProofs StateHist StateMisc Inekf SpecFilter
  InekfProofs InekfThms Imu Propagation SpecProp Blk PsdBlk PropagationProofs PropagationThms PropagationLog Queue VelCorr LegCorr SpecCorr ImuNeg VelThms LegThms LegAdd LegLoop LegUpd LegHist.
Import ListNotations.
Local Open Scope R_scope.

Lemma div_lin b a : (a < 3)%nat -> ((3 * b + a) / 3 = b)%nat.
Proof. intros H. rewrite (Nat.mul_comm 3 b), Nat.div_add_l by lia. rewrite Nat.div_small by lia. lia. Qed.
Lemma mod_lin b a : (a < 3)%nat -> ((3 * b + a) mod 3 = a)%nat.
Proof. intros H. rewrite (Nat.mul_comm 3 b), Nat.add_comm, Nat.mod_add by lia. apply Nat.mod_small. lia. Qed.
Lemma lin_ex i : exists b a, i = (3 * b + a)%nat /\ (a < 3)%nat.
Proof. exists (i / 3)%nat, (i mod 3)%nat. pose proof (Nat.mod_upper_bound i 3). pose proof (Nat.div_mod i 3). lia. Qed.

(** entries of the change of coordinates, by blocks *)
Lemma L2R_blk K X b a b' a' : (a < 3)%nat -> (a' < 3)%nat -> (b < 1 + K)%nat -> (b' < 1 + K)%nat ->
  ent (L2R K X) (3 * b + a) (3 * b' + a') =
  mget (if Nat.eqb b b' then rot X else if Nat.eqb b' 0 then crossm (col X (b - 1)) *m rot X else mzero) a a'.
Proof.
  intros Ha Ha' Hb Hb'. unfold L2R. rewrite ent_mk by lia. destruct (Nat.ltb_spec (3 * b + a) (3 + 3 * K)), (Nat.ltb_spec (3 * b' + a') (3 + 3 * K)); try lia.
  cbn [andb]. rewrite !div_lin, !mod_lin by auto. reflexivity.
Qed.
Lemma L2R_bias K X i j : (i < 9 + 3 * K)%nat -> (j < 9 + 3 * K)%nat -> (3 + 3 * K <= i \/ 3 + 3 * K <= j)%nat -> ent (L2R K X) i j = if Nat.eqb i j then 1 else 0.
Proof.
  intros Hi Hj H. unfold L2R. rewrite ent_mk by lia. destruct (Nat.ltb_spec i (3 + 3 * K)), (Nat.ltb_spec j (3 + 3 * K)); try lia; reflexivity.
Qed.
Lemma sum_blocks n (g : nat -> R) : sum (3 * n) g = sum n (fun b => g (3 * b)%nat + g (3 * b + 1)%nat + g (3 * b + 2)%nat).
Proof.
  induction n as [|n IH]; [reflexivity|]. replace (3 * S n)%nat with (S (S (S (3 * n)))) by lia. cbn [sum]. rewrite IH.
  replace (3 * n + 1)%nat with (S (3 * n)) by lia. replace (3 * n + 2)%nat with (S (S (3 * n))) by lia. ring.
Qed.
(** a row of the change of coordinates applied to a vector *)
Definition m3row (M : M3) (a : nat) (g : nat -> R) (o : nat) : R := mget M a 0 * g o + mget M a 1 * g (o + 1)%nat + mget M a 2 * g (o + 2)%nat.
Definition rowL (K : nat) (X : mat) (i : nat) (g : nat -> R) : R :=
  if (i <? 3 + 3 * K)%nat then
    m3row (rot X) (i mod 3) g (3 * (i / 3)) + (if (i <? 3)%nat then 0 else m3row (crossm (col X (i / 3 - 1)) *m rot X) (i mod 3) g 0)
  else g i.
Lemma row_L K X i g : (i < 9 + 3 * K)%nat -> sum (9 + 3 * K) (fun k => ent (L2R K X) i k * g k) = rowL K X i g.
Proof.
  intros Hi. unfold rowL. destruct (Nat.ltb_spec i (3 + 3 * K)) as [H|H].
  - destruct (lin_ex i) as (b & a & -> & Ha). rewrite div_lin, mod_lin by auto.
    replace (9 + 3 * K)%nat with (3 * (1 + K) + 6)%nat at 1 by lia. rewrite sum_app. rewrite (sum_zero 6).
    2:{ intros k Hk. rewrite L2R_bias by lia. caseb. ring. }
    rewrite Rplus_0_r, sum_blocks.
    transitivity (sum (1 + K) (fun b' => (if Nat.eqb b' b then m3row (rot X) a g (3 * b) else 0) + (if Nat.eqb b' 0 then (if Nat.eqb b 0 then 0 else m3row (crossm (col X (b - 1)) *m rot X) a g 0) else 0))).
    + apply sum_ext. intros b' Hb'. replace (3 * b')%nat with (3 * b' + 0)%nat at 1 2 by lia. rewrite !L2R_blk by lia. unfold m3row.
      destruct (Nat.eqb_spec b b') as [->|Hne].
      * rewrite Nat.eqb_refl. destruct (Nat.eqb_spec b' 0) as [->|]; rewrite ?Nat.eqb_refl, ?Nat.add_0_r; [ring|]. ring.
      * destruct (Nat.eqb_spec b' b); [lia|]. destruct (Nat.eqb_spec b' 0) as [->|].
        -- destruct (Nat.eqb_spec b 0); [lia|]. cbn [Nat.mul Nat.add]. ring.
        -- destruct a as [|[|[|]]]; try lia; cbn; ring.
    + rewrite sum_plus. f_equal.
      * rewrite (sum_delta' _ b); [rewrite Nat.eqb_refl; reflexivity| |lia]. intros k Hk Hne. caseb. reflexivity.
      * rewrite (sum_delta' _ 0%nat); [|intros k Hk Hne; caseb; reflexivity|lia]. cbn [Nat.eqb].
        destruct (Nat.eqb_spec b 0), (Nat.ltb_spec (3 * b + a) 3); try lia; reflexivity.
  - rewrite (sum_delta' _ i); [rewrite L2R_bias by lia; rewrite Nat.eqb_refl; ring| |lia].
    intros k Hk Hne. rewrite L2R_bias by lia. caseb. ring.
Qed.
Lemma nr_L2R K X : nr (L2R K X) = (9 + 3 * K)%nat. Proof. reflexivity. Qed.
Lemma nc_L2R K X : nc (L2R K X) = (9 + 3 * K)%nat. Proof. reflexivity. Qed.
Global Hint Rewrite nr_L2R nc_L2R : mdims.

(** ** removal *)
Definition selm (i m n : nat) : mat := mk (n - m) n (fun r c => if Nat.eqb (skip i m r) c then 1 else 0).
Lemma nr_selm i m n : nr (selm i m n) = (n - m)%nat. Proof. reflexivity. Qed.
Lemma nc_selm i m n : nc (selm i m n) = n. Proof. reflexivity. Qed.
Global Hint Rewrite nr_selm nc_selm : mdims.
Lemma skip_lt i m n r : (r < n - m)%nat -> (skip i m r < n)%nat.
Proof. intros. unfold skip. destruct (Nat.ltb_spec r i); lia. Qed.
Lemma drop_sel i m P : nr P = nc P -> drop_rc i m P = selm i m (nr P) *M P *M mT (selm i m (nr P)).
Proof.
  intros HP. apply mat_ext; [mdim|mdim; congruence|]. intros r c Hr Hc. mdim.
  unfold drop_rc. rewrite ent_mk by (mdim; lia). rewrite ent_mult. mdim.
  transitivity (sum (nc P) (fun k => (if Nat.eqb (skip i m c) k then 1 else 0) * ent P (skip i m r) k)).
  - rewrite sum_one; [reflexivity|]. apply skip_lt; lia.
  - apply sum_ext. intros k Hk. rewrite ent_T. unfold selm at 2. rewrite ent_mk by lia. rewrite Rmult_comm. f_equal.
    rewrite ent_mult. mdim. transitivity (sum (nr P) (fun k0 => (if Nat.eqb (skip i m r) k0 then 1 else 0) * ent P k0 k)).
    + rewrite sum_one; [reflexivity|]. apply skip_lt; lia.
    + apply sum_ext. intros k0 Hk0. unfold selm. rewrite ent_mk by lia. reflexivity.
Qed.
Lemma col_drop K X k j : SEK (S K) X -> (k <= K)%nat -> (j < K)%nat -> col (drop_rc (3 + k) 1 X) j = col X (skip k 1 j).
Proof.
  intros [X1 X2 _ _] Hk Hj. unfold col. apply V3_ext. intros a Ha. rewrite !vget_getV3 by auto. unfold drop_rc. rewrite ent_mk by lia.
  f_equal; unfold skip; destruct (Nat.ltb_spec (0 + a) (3 + k)), (Nat.ltb_spec (3 + j) (3 + k)), (Nat.ltb_spec j k); lia.
Qed.
Lemma rot_drop K X k : SEK (S K) X -> (k <= K)%nat -> rot (drop_rc (3 + k) 1 X) = rot X.
Proof.
  intros [X1 X2 _ _] Hk. unfold rot. apply M3_ext. intros a b Ha Hb. rewrite !mget_getM3 by auto. unfold drop_rc. rewrite ent_mk by lia.
  f_equal; unfold skip; match goal with |- context [Nat.ltb ?x ?y] => destruct (Nat.ltb_spec x y) end; lia.
Qed.
Lemma rowL_ext K X i g g' : (i < 9 + 3 * K)%nat -> (forall k, (k < 9 + 3 * K)%nat -> g k = g' k) -> rowL K X i g = rowL K X i g'.
Proof. intros Hi H. rewrite <- !row_L by auto. apply sum_ext. intros k Hk. rewrite H by auto. reflexivity. Qed.
(** dropping a contact commutes with the change of coordinates *)
Lemma sel_L2R K X k : SEK (S K) X -> (k <= K)%nat ->
  selm (3 * (1 + k)) 3 (9 + 3 * S K) *M L2R (S K) X = L2R K (drop_rc (3 + k) 1 X) *M selm (3 * (1 + k)) 3 (9 + 3 * S K).
Proof.
  intros HX Hk. apply mat_ext; [mdim; lia|mdim|]. intros i j Hi Hj. mdim.
  rewrite !ent_mult. mdim. rewrite row_L by lia.
  transitivity (ent (L2R (S K) X) (skip (3 * (1 + k)) 3 i) j).
  { transitivity (sum (9 + 3 * S K) (fun l => (if Nat.eqb (skip (3 * (1 + k)) 3 i) l then 1 else 0) * ent (L2R (S K) X) l j)).
    - apply sum_ext. intros l Hl. unfold selm. rewrite ent_mk by lia. reflexivity.
    - apply (sum_one _ _ (fun l => ent (L2R (S K) X) l j)). apply skip_lt. lia. }
  transitivity (rowL K (drop_rc (3 + k) 1 X) i (fun l => if Nat.eqb (skip (3 * (1 + k)) 3 l) j then 1 else 0)).
  2:{ apply rowL_ext; [lia|]. intros l Hl. unfold selm. rewrite ent_mk by lia. reflexivity. }
  unfold rowL. rewrite (rot_drop K) by auto. destruct (Nat.ltb_spec i (3 + 3 * K)) as [H|H].
  - destruct (lin_ex i) as (b & a & -> & Ha). rewrite div_lin, mod_lin by auto.
    assert (skip (3 * (1 + k)) 3 (3 * b + a) = 3 * skip (1 + k) 1 b + a)%nat as ->.
    { unfold skip. destruct (Nat.ltb_spec (3 * b + a) (3 * (1 + k))), (Nat.ltb_spec b (1 + k)); lia. }
    destruct (Nat.ltb_spec j (3 + 3 * S K)) as [Hj'|Hj'].
    2:{ rewrite L2R_bias by (unfold skip; destruct (Nat.ltb b (1 + k)); lia). unfold m3row.
        assert (forall x, (x < 3 + 3 * K)%nat -> Nat.eqb (skip (3 * (1 + k)) 3 x) j = false) as E.
        { intros x Hx. apply Nat.eqb_neq. unfold skip. destruct (Nat.ltb_spec x (3 * (1 + k))); lia. }
        rewrite !E by lia. destruct (Nat.eqb_spec (3 * skip (1 + k) 1 b + a) j) as [<-|].
        - unfold skip in Hj'. destruct (Nat.ltb_spec b (1 + k)); lia.
        - destruct (Nat.ltb (3 * b + a) 3); ring. }
    destruct (lin_ex j) as (b' & a' & -> & Ha').
    assert (forall x c, (c < 3)%nat -> Nat.eqb (skip (3 * (1 + k)) 3 (3 * x + c)) (3 * b' + a') = Nat.eqb (skip (1 + k) 1 x) b' && Nat.eqb c a') as E.
    { intros x c Hc. assert (skip (3 * (1 + k)) 3 (3 * x + c) = 3 * skip (1 + k) 1 x + c)%nat as ->.
      { unfold skip. destruct (Nat.ltb_spec (3 * x + c) (3 * (1 + k))), (Nat.ltb_spec x (1 + k)); lia. }
      destruct (Nat.eqb_spec (3 * skip (1 + k) 1 x + c) (3 * b' + a')), (Nat.eqb_spec (skip (1 + k) 1 x) b'), (Nat.eqb_spec c a'); cbn [andb]; try reflexivity; try lia. }
    assert (forall x M, m3row M a (fun l => if Nat.eqb (skip (3 * (1 + k)) 3 l) (3 * b' + a') then 1 else 0) (3 * x) = if Nat.eqb (skip (1 + k) 1 x) b' then mget M a a' else 0) as EM.
    { intros x M. unfold m3row. replace (3 * x)%nat with (3 * x + 0)%nat at 1 by lia. rewrite !E by lia.
      destruct (Nat.eqb (skip (1 + k) 1 x) b'); cbn [andb]; destruct a' as [|[|[|]]]; try lia; cbn [Nat.eqb]; ring. }
    rewrite EM. specialize (EM 0%nat). change (3 * 0)%nat with 0%nat in EM. rewrite EM.
    rewrite L2R_blk by (auto; unfold skip; destruct (Nat.ltb_spec b (1 + k)); lia).
    change (skip (1 + k) 1 0) with 0%nat.
    destruct (Nat.eqb_spec (skip (1 + k) 1 b) b') as [Eb|Nb].
    + destruct (Nat.ltb_spec (3 * b + a) 3); [ring|]. destruct (Nat.eqb_spec 0 b'); [|ring]. exfalso.
      unfold skip in Eb. destruct (Nat.ltb_spec b (1 + k)); lia.
    + rewrite (Nat.eqb_sym 0 b'). destruct (Nat.eqb_spec b' 0) as [->|Nb'].
      * destruct (Nat.ltb_spec (3 * b + a) 3).
        { exfalso. apply Nb. assert (b = 0)%nat as -> by lia. reflexivity. }
        rewrite (col_drop K) by (auto; lia). rewrite Rplus_0_l. repeat f_equal. unfold skip. destruct (Nat.ltb_spec b (1 + k)), (Nat.ltb_spec (b - 1) k); lia.
      * destruct (Nat.ltb (3 * b + a) 3); destruct a as [|[|[|]]], a' as [|[|[|]]]; try lia; cbn; ring.
  - assert (skip (3 * (1 + k)) 3 i = i + 3)%nat as -> by (unfold skip; destruct (Nat.ltb_spec i (3 * (1 + k))); lia).
    rewrite L2R_bias by lia. reflexivity.
Qed.
Lemma drop_conv K X P k : SEK (S K) X -> (k <= K)%nat -> nr P = (9 + 3 * S K)%nat -> nc P = (9 + 3 * S K)%nat ->
  drop_rc (3 * (1 + k)) 3 (L2R (S K) X *M P *M mT (L2R (S K) X)) =
  L2R K (drop_rc (3 + k) 1 X) *M drop_rc (3 * (1 + k)) 3 P *M mT (L2R K (drop_rc (3 + k) 1 X)).
Proof.
  intros HX Hk H1 H2. rewrite (drop_sel _ _ P) by congruence. rewrite (drop_sel (3 * (1 + k)) 3 (L2R (S K) X *M P *M mT (L2R (S K) X))) by (mdim; congruence). rewrite !nr_mult, H1, nr_L2R.
  pose proof (sel_L2R K X k HX Hk) as E. set (S0 := selm _ _ _) in *. set (L := L2R (S K) X) in *. set (L' := L2R K _) in *.
  assert (nc S0 = (9 + 3 * S K)%nat) as D1 by reflexivity. assert (nr S0 = (9 + 3 * K)%nat) as D2 by (unfold S0; mdim; lia).
  assert (nr L = (9 + 3 * S K)%nat) as D3 by reflexivity. assert (nc L = (9 + 3 * S K)%nat) as D4 by reflexivity.
  assert (nr L' = (9 + 3 * K)%nat) as D5 by reflexivity. assert (nc L' = (9 + 3 * K)%nat) as D6 by reflexivity.
  clearbody S0 L L'.
  transitivity ((S0 *M L) *M P *M mT (S0 *M L)).
  - rewrite mT_mult by congruence. rewrite !mmult_assoc. reflexivity.
  - rewrite E. rewrite mT_mult by congruence. rewrite !mmult_assoc. reflexivity.
Qed.

(** ** addition *)
Definition foot_X (K : nat) (X : mat) (f : V3) : mat :=
  sek (S K) (rot X) (fun k => if Nat.eqb k K then col X 1 +v rot X *v f else col X k).
Lemma rot_foot K X f : rot (foot_X K X f) = rot X.
Proof. unfold foot_X. apply rot_aff. Qed.
Lemma col_foot K X f k : (k < S K)%nat -> col (foot_X K X f) k = if Nat.eqb k K then col X 1 +v rot X *v f else col X k.
Proof. intros H. unfold foot_X. rewrite col_aff by auto. reflexivity. Qed.
Lemma F_conv K X f : SO3 (rot X) -> (2 <= K)%nat ->
  augF RightInvariant K f *M L2R K X = L2R (S K) (foot_X K X f) *M augF LeftInvariant K f.
Proof.
  intros HR HK. apply mat_ext; [mdim; change (nr (augF RightInvariant K f)) with (12 + 3 * K)%nat; lia|mdim; reflexivity|]. intros i j Hi Hj.
  change (i < 12 + 3 * K)%nat in Hi. change (j < 9 + 3 * K)%nat in Hj.
  rewrite !ent_mult. change (nc (augF RightInvariant K f)) with (9 + 3 * K)%nat. change (nc (L2R (S K) (foot_X K X f))) with (9 + 3 * S K)%nat.
  rewrite row_F, row_L by lia.
  set (F := fun k => ent (augF LeftInvariant K f) k j).
  assert (forall k, (k < 3 + 3 * K)%nat -> F k = if Nat.eqb k j then 1 else 0) as F1.
  { intros k Hk. unfold F, augF. rewrite ent_mk by lia. destruct (Nat.ltb_spec k (3 + 3 * K)); [reflexivity|lia]. }
  assert (forall a, (a < 3)%nat -> F (3 + 3 * K + a)%nat = if (j <? 3)%nat then mget (skew (vneg f)) a j else if Nat.eqb j (6 + a) then 1 else 0) as F2.
  { intros a Ha. unfold F, augF. rewrite ent_mk by lia. destruct (Nat.ltb_spec (3 + 3 * K + a) (3 + 3 * K)); [lia|].
    destruct (Nat.ltb_spec (3 + 3 * K + a) (6 + 3 * K)); [|lia]. replace (3 + 3 * K + a - (3 + 3 * K))%nat with a by lia. reflexivity. }
  assert (forall k, (6 + 3 * K <= k < 12 + 3 * K)%nat -> F k = if Nat.eqb (k - 3) j then 1 else 0) as F3.
  { intros k Hk. unfold F, augF. rewrite ent_mk by lia. destruct (Nat.ltb_spec k (3 + 3 * K)); [lia|]. destruct (Nat.ltb_spec k (6 + 3 * K)); [lia|reflexivity]. }
  clearbody F.
  assert (forall i X', (i < 3 + 3 * K)%nat -> rot X' = rot X -> (forall k, (k < K)%nat -> col X' k = col X k) -> ent (L2R K X) i j = rowL (S K) X' i F) as Hold.
  { intros i' X' Hi' E1 E2. unfold rowL. destruct (Nat.ltb_spec i' (3 + 3 * S K)); [|lia]. destruct (lin_ex i') as (b & a & -> & Ha).
    rewrite div_lin, mod_lin by auto. rewrite E1. rewrite (E2 (b - 1)%nat) by lia.
    destruct (Nat.ltb_spec j (3 + 3 * K)) as [Hj'|Hj'].
    - destruct (lin_ex j) as (b' & a' & -> & Ha'). rewrite L2R_blk by (auto; lia).
      assert (forall x c, (x < 1 + K)%nat -> (c < 3)%nat -> F (3 * x + c)%nat = if Nat.eqb x b' && Nat.eqb c a' then 1 else 0) as E.
      { intros x c Hx Hc. rewrite F1 by lia. destruct (Nat.eqb_spec (3 * x + c) (3 * b' + a')), (Nat.eqb_spec x b'), (Nat.eqb_spec c a'); cbn [andb]; try reflexivity; lia. }
      assert (forall x M, (x < 1 + K)%nat -> m3row M a F (3 * x) = if Nat.eqb x b' then mget M a a' else 0) as EM.
      { intros x M Hx. unfold m3row. replace (3 * x)%nat with (3 * x + 0)%nat at 1 by lia. rewrite !E by lia.
        destruct (Nat.eqb x b'); cbn [andb]; destruct a' as [|[|[|]]]; try lia; cbn [Nat.eqb]; ring. }
      rewrite EM by lia. pose proof (fun M => EM 0%nat M ltac:(lia)) as E0. change (3 * 0)%nat with 0%nat in E0. rewrite E0.
      destruct (Nat.eqb_spec b b') as [->|Hne].
      + destruct (Nat.ltb_spec (3 * b' + a) 3); [ring|]. destruct (Nat.eqb_spec 0 b'); [lia|ring].
      + rewrite (Nat.eqb_sym 0 b'). destruct (Nat.eqb_spec b' 0) as [->|].
        * destruct (Nat.ltb_spec (3 * b + a) 3); [lia|]. ring.
        * destruct (Nat.ltb (3 * b + a) 3); destruct a as [|[|[|]]], a' as [|[|[|]]]; try lia; cbn; ring.
    - rewrite L2R_bias by lia. unfold m3row. rewrite !F1 by lia. caseb. destruct (Nat.ltb (3 * b + a) 3); ring. }
  unfold phi. destruct (Nat.ltb_spec i (3 + 3 * K)) as [H|H]; [|destruct (Nat.ltb_spec i (6 + 3 * K)) as [H'|H']].
  - apply Hold; [exact H|apply rot_foot|]. intros k Hk. rewrite col_foot by lia. caseb. reflexivity.
  - rewrite Rplus_0_r. assert (exists a, i = 3 * (1 + K) + a /\ a < 3)%nat as (a & -> & Ha) by (exists (i - (3 + 3 * K))%nat; lia). replace (3 * (1 + K) + a - (3 + 3 * K))%nat with a by lia.
    unfold rowL. destruct (Nat.ltb_spec (3 * (1 + K) + a) (3 + 3 * S K)); [|lia]. destruct (Nat.ltb_spec (3 * (1 + K) + a) 3); [lia|].
    rewrite div_lin, mod_lin by auto. rewrite rot_foot. replace (1 + K - 1)%nat with K by lia. rewrite col_foot, Nat.eqb_refl by lia.
    unfold m3row. replace (3 * (1 + K) + 1)%nat with (3 + 3 * K + 1)%nat by lia. replace (3 * (1 + K) + 2)%nat with (3 + 3 * K + 2)%nat by lia.
    replace (3 * (1 + K))%nat with (3 + 3 * K + 0)%nat by lia. rewrite !F2, !F1 by lia.
    replace (6 + a)%nat with (3 * 2 + a)%nat by lia.
    destruct (Nat.ltb_spec j 3) as [Hj3|Hj3].
    + replace j with (3 * 0 + j)%nat by lia. rewrite L2R_blk by lia. cbn [Nat.eqb Nat.sub]. cbn [Nat.mul Nat.add].
      pose proof (fun A B => SO3_skew A B) as SK. 
      assert (crossm (col X 1 +v rot X *v f) *m rot X +m rot X *m skew (vneg f) = crossm (col X 1) *m rot X) as E.
      { change (crossm (col X 1 +v rot X *v f)) with (skew (col X 1 +v rot X *v f)). change (crossm (col X 1)) with (skew (col X 1)).
        assert (skew (rot X *v f) *m rot X = rot X *m skew f) as E.
        { rewrite (SO3_skew (rot X) f HR). replace (rot X *m skew f *m mtr (rot X) *m rot X) with (rot X *m skew f *m (mtr (rot X) *m rot X)) by ring3. rewrite (proj1 HR). ring3. }
        transitivity (skew (col X 1) *m rot X +m (skew (rot X *v f) *m rot X +m rot X *m skew (vneg f))).
        - generalize (col X 1), (rot X *v f), (rot X). intros u v A. unfold skew. ring3.
        - rewrite E. generalize (col X 1), (rot X). intros u A. unfold skew. ring3. }
      rewrite <- E. clear E SK. generalize (crossm (col X 1 +v rot X *v f) *m rot X), (rot X), (skew (vneg f)). intros B A S0.
      destruct A, B, S0; destruct a as [|[|[|]]], j as [|[|[|]]]; try lia; cbn; ring.
    + destruct (Nat.eqb_spec 0 j); [lia|]. destruct (Nat.eqb_spec (0 + 1) j); [lia|]. destruct (Nat.eqb_spec (0 + 2) j); [lia|].
      destruct (Nat.ltb_spec j (3 + 3 * K)) as [Hj'|Hj'].
      * destruct (lin_ex j) as (b' & a' & -> & Ha'). rewrite L2R_blk by (auto; lia). destruct (Nat.eqb_spec 2 b') as [<-|Hne].
        -- destruct (rot X); destruct a as [|[|[|]]], a' as [|[|[|]]]; try lia; cbn; ring.
        -- destruct (Nat.eqb_spec b' 0); [lia|]. repeat match goal with |- context [Nat.eqb ?x ?y] => destruct (Nat.eqb_spec x y); [exfalso; lia|] end.
           destruct a as [|[|[|]]], a' as [|[|[|]]]; try lia; cbn; ring.
      * rewrite L2R_bias by lia. repeat match goal with |- context [Nat.eqb ?x ?y] => destruct (Nat.eqb_spec x y); [exfalso; lia|] end. ring.
  - rewrite L2R_bias by lia. unfold rowL. destruct (Nat.ltb_spec i (3 + 3 * S K)); [lia|]. rewrite F3 by lia. reflexivity.
Qed.
Lemma G_conv K X f : augG RightInvariant K (rot X) = L2R (S K) (foot_X K X f) *M augG LeftInvariant K (rot X).
Proof.
  apply mat_ext; [mdim; change (nr (augG RightInvariant K (rot X))) with (12 + 3 * K)%nat; lia|reflexivity|]. intros i j Hi Hj. change (i < 12 + 3 * K)%nat in Hi. change (j < 3)%nat in Hj.
  rewrite ent_mult. change (nc (L2R (S K) (foot_X K X f))) with (9 + 3 * S K)%nat. rewrite row_L by lia.
  set (G := fun k => ent (augG LeftInvariant K (rot X)) k j).
  assert (forall k, (k < 12 + 3 * K)%nat -> G k = if ((3 + 3 * K <=? k) && (k <? 6 + 3 * K))%nat then mget mid (k - (3 + 3 * K)) j else 0) as E.
  { intros k Hk. unfold G, augG. rewrite ent_mk by lia. reflexivity. }
  clearbody G. unfold augG. rewrite ent_mk by lia. unfold rowL.
  assert (forall k, (k < 3 + 3 * K)%nat -> G k = 0) as E1 by (intros k Hk; rewrite E by lia; destruct (Nat.leb_spec (3 + 3 * K) k); [lia|reflexivity]).
  assert (forall c, (c < 3)%nat -> G (3 + 3 * K + c)%nat = mget mid c j) as E2.
  { intros c Hc. rewrite E by lia. destruct (Nat.leb_spec (3 + 3 * K) (3 + 3 * K + c)); [|lia]. destruct (Nat.ltb_spec (3 + 3 * K + c) (6 + 3 * K)); [|lia].
    cbn [andb]. f_equal. lia. }
  destruct (Nat.ltb_spec i (3 + 3 * S K)) as [H|H].
  - destruct (lin_ex i) as (b & a & -> & Ha). rewrite div_lin, mod_lin, rot_foot by auto. unfold m3row.
    rewrite (E1 0%nat), (E1 (0 + 1)%nat), (E1 (0 + 2)%nat) by lia.
    replace (if (3 * b + a <? 3)%nat then 0 else mget (crossm (col (foot_X K X f) (b - 1)) *m rot X) a 0 * 0 + mget (crossm (col (foot_X K X f) (b - 1)) *m rot X) a 1 * 0 +
      mget (crossm (col (foot_X K X f) (b - 1)) *m rot X) a 2 * 0) with 0 by (destruct (Nat.ltb (3 * b + a) 3); ring).
    rewrite Rplus_0_r. destruct (Nat.leb_spec (3 + 3 * K) (3 * b + a)).
    + assert (b = 1 + K)%nat as -> by lia. destruct (Nat.ltb_spec (3 * (1 + K) + a) (6 + 3 * K)); [|lia]. cbn [andb].
      replace (3 * (1 + K) + a - (3 + 3 * K))%nat with a by lia.
      replace (3 * (1 + K) + 1)%nat with (3 + 3 * K + 1)%nat by lia. replace (3 * (1 + K) + 2)%nat with (3 + 3 * K + 2)%nat by lia.
      replace (3 * (1 + K))%nat with (3 + 3 * K + 0)%nat by lia. rewrite !E2 by lia.
      destruct (rot X); destruct a as [|[|[|]]], j as [|[|[|]]]; try lia; cbn; ring.
    + cbn [andb]. rewrite !E1 by lia. ring.
  - rewrite E by lia. destruct (Nat.ltb_spec i (6 + 3 * K)); [lia|]. rewrite !andb_false_r. reflexivity.
Qed.
Lemma aug_conv K X f c P : SEK K X -> (2 <= K)%nat -> nr P = (9 + 3 * K)%nat -> nc P = (9 + 3 * K)%nat ->
  aug_cov RightInvariant K X f c (L2R K X *M P *M mT (L2R K X)) =
  L2R (S K) (foot_X K X f) *M aug_cov LeftInvariant K X f c P *M mT (L2R (S K) (foot_X K X f)).
Proof.
  intros HX HK H1 H2. unfold aug_cov. pose proof (F_conv K X f (sek_rot _ _ HX) HK) as EF. pose proof (G_conv K X f) as EG.
  rewrite EG. set (FR := augF RightInvariant K f) in *. set (FL := augF LeftInvariant K f) in *. set (GL := augG LeftInvariant K (rot X)) in *.
  set (L := L2R K X) in *. set (L' := L2R (S K) (foot_X K X f)) in *.
  assert (nr FR = (12 + 3 * K)%nat /\ nc FR = (9 + 3 * K)%nat) as [D1 D2] by (split; reflexivity).
  assert (nr FL = (12 + 3 * K)%nat /\ nc FL = (9 + 3 * K)%nat) as [D3 D4] by (split; reflexivity).
  assert (nr GL = (12 + 3 * K)%nat /\ nc GL = 3%nat) as [D5 D6] by (split; reflexivity).
  assert (nr L = (9 + 3 * K)%nat /\ nc L = (9 + 3 * K)%nat) as [D7 D8] by (split; reflexivity).
  assert (nr L' = (12 + 3 * K)%nat /\ nc L' = (12 + 3 * K)%nat) as [D9 D10] by (unfold L'; rewrite nr_L2R, nc_L2R; lia).
  clear EG. clearbody FR FL GL L L'.
  rewrite mmult_plus_r, mmult_plus_l by mdim. f_equal.
  - transitivity ((FR *M L) *M P *M mT (FR *M L)).
    + rewrite mT_mult by congruence. rewrite !mmult_assoc. reflexivity.
    + rewrite EF. rewrite mT_mult by congruence. rewrite !mmult_assoc. reflexivity.
  - rewrite mT_mult by congruence. rewrite !mmult_assoc. reflexivity.
Qed.
