(** Square matrices made of 3x3 blocks. *)
From Coq Require Import Reals List Bool Lia Lra.
From Verif Require Import Res Vec3 Mat LieGroup MatInv Psd Spec LieSO3 LieSEK Propagation.
Import ListNotations.
Local Open Scope R_scope.

Definition blk (n : nat) (f : nat -> nat -> M3) : mat :=
  mk (3 * n) (3 * n) (fun r c => mget (f (r / 3) (c / 3))%nat (r mod 3) (c mod 3)).
Global Arguments blk : simpl never.
Lemma nr_blk n f : nr (blk n f) = (3 * n)%nat. Proof. reflexivity. Qed.
Lemma nc_blk n f : nc (blk n f) = (3 * n)%nat. Proof. reflexivity. Qed.
Global Hint Rewrite nr_blk nc_blk : mdims.
Lemma getM3_blk n f i j : (i < n)%nat -> (j < n)%nat -> getM3 (blk n f) (3 * i) (3 * j) = f i j.
Proof.
  intros Hi Hj. apply M3_ext; intros a b Ha Hb. rewrite mget_getM3 by auto. unfold blk.
  rewrite ent_mk by lia. destruct (divmod3 i a Ha) as [-> ->]. destruct (divmod3 j b Hb) as [-> ->]. reflexivity.
Qed.
Lemma blk_eq n f M : nr M = (3 * n)%nat -> nc M = (3 * n)%nat ->
  (forall i j, (i < n)%nat -> (j < n)%nat -> getM3 M (3 * i) (3 * j) = f i j) -> M = blk n f.
Proof.
  intros H1 H2 H. apply (mat_ext_blocks _ _ n n); auto. intros i j Hi Hj. rewrite getM3_blk by auto. auto.
Qed.
Lemma blk_ext n f g : (forall i j, (i < n)%nat -> (j < n)%nat -> f i j = g i j) -> blk n f = blk n g.
Proof. intros H. apply blk_eq; try reflexivity. intros. rewrite getM3_blk by auto. auto. Qed.
Lemma blk_eta n M : nr M = (3 * n)%nat -> nc M = (3 * n)%nat -> M = blk n (fun i j => getM3 M (3 * i) (3 * j)).
Proof. intros. apply blk_eq; auto. Qed.
Lemma blk_eye n : meye (3 * n) = blk n (fun i j => if Nat.eqb i j then mid else mzero).
Proof. apply blk_eq; try reflexivity. intros. apply getM3_eye; lia. Qed.
Lemma blk_mult n f g : blk n f *M blk n g = blk n (fun i j => msum n (fun k => f i k *m g k j)).
Proof.
  apply blk_eq; try reflexivity. intros i j Hi Hj. rewrite (getM3_mult _ _ _ _ n) by reflexivity.
  apply msum_ext. intros k Hk. rewrite !getM3_blk by auto. reflexivity.
Qed.
Definition bupd (f : nat -> nat -> M3) (i j : nat) (M : M3) (a b : nat) : M3 :=
  if Nat.eqb a i && Nat.eqb b j then M else f a b.
Lemma putM_blk n f r c i j M : r = (3 * i)%nat -> c = (3 * j)%nat -> (i < n)%nat -> (j < n)%nat ->
  putM (blk n f) r c M = Ok (blk n (bupd f i j M)).
Proof.
  intros -> -> Hi Hj. unfold putM. rewrite cput_ok by (mdim; lia). f_equal. apply blk_eq; mdim.
  intros a b Ha Hb. rewrite getM3_put by (mdim; lia). rewrite getM3_ofM3. unfold bupd. rewrite getM3_blk by auto.
  destruct (Nat.eqb_spec (3 * a) (3 * i)), (Nat.eqb_spec a i); try lia; cbn [andb]; auto.
  destruct (Nat.eqb_spec (3 * b) (3 * j)), (Nat.eqb_spec b j); try lia; auto.
Qed.
Lemma putM_any n A r c i j M : nr A = (3 * n)%nat -> nc A = (3 * n)%nat ->
  r = (3 * i)%nat -> c = (3 * j)%nat -> (i < n)%nat -> (j < n)%nat ->
  putM A r c M = Ok (put A r c (ofM3 M)).
Proof. intros. unfold putM. rewrite cput_ok by (mdim; lia). reflexivity. Qed.
Lemma foldM_blk (g : nat -> M3) (ri ci : nat -> nat) n : forall l f,
  (forall i, In i l -> (ri i < n)%nat /\ (ci i < n)%nat) ->
  foldM (fun P i => putM P (ri i * 3) (ci i * 3) (g i)) (blk n f) l
  = Ok (blk n (fold_left (fun f i => bupd f (ri i) (ci i) (g i)) l f)).
Proof.
  induction l as [|i l IH]; intros f H; [reflexivity|]. cbn [foldM fold_left].
  rewrite (putM_blk n f _ _ (ri i) (ci i)) by (try lia; apply H; left; reflexivity). cbn [bind].
  apply IH. intros k Hk. apply H. right; exact Hk.
Qed.
Lemma fold_bupd_none (g : nat -> M3) (ri ci : nat -> nat) a b : forall l f,
  (forall i, In i l -> ~ (ri i = a /\ ci i = b)) ->
  fold_left (fun f i => bupd f (ri i) (ci i) (g i)) l f a b = f a b.
Proof.
  induction l as [|i l IH]; intros f H; [reflexivity|]. cbn [fold_left]. rewrite IH by (intros; apply H; right; auto).
  unfold bupd. specialize (H i (or_introl eq_refl)).
  destruct (Nat.eqb_spec a (ri i)), (Nat.eqb_spec b (ci i)); cbn [andb]; auto. exfalso; apply H; auto.
Qed.
Lemma fold_bupd_some (g : nat -> M3) (ri ci : nat -> nat) a b v : forall l f,
  (exists y, In y l /\ ri y = a /\ ci y = b) \/ f a b = v ->
  (forall i, In i l -> ri i = a -> ci i = b -> g i = v) ->
  fold_left (fun f i => bupd f (ri i) (ci i) (g i)) l f a b = v.
Proof.
  induction l as [|y l IH]; intros f Hy Hal.
  - destruct Hy as [(y & [] & _)|Hy]; auto.
  - cbn [fold_left]. apply IH; [|intros; apply Hal; auto; right; auto].
    destruct (Nat.eqb_spec a (ri y)) as [E1|E1], (Nat.eqb_spec b (ci y)) as [E2|E2].
    1:{ right. unfold bupd. rewrite <- E1, <- E2, !Nat.eqb_refl. cbn [andb]. apply Hal; auto. left; auto. }
    all: destruct Hy as [(z & [->|Hz] & Q1 & Q2)|Hy]; [congruence|left; eauto|right];
      unfold bupd; destruct (Nat.eqb_spec a (ri y)), (Nat.eqb_spec b (ci y)); cbn [andb]; auto; congruence.
Qed.
