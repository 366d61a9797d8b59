(** Proofs about Exp_SEK3 and Adjoint_SEK3. *)
From Coq Require Import Reals ZArith List Bool Lia Lra Psatz.
From Coquelicot Require Import Coquelicot.
From Verif Require Import Res Vec3 Mat LieGroup MatInv Psd Spec LieSO3.
Import ListNotations.
Local Open Scope R_scope.

(** ** Matrices [A f_1 .. f_K; 0 b I] *)
Definition aff (K : nat) (A : M3) (f : nat -> V3) (b : R) : mat :=
  mk (3 + K) (3 + K) (fun i j =>
    if (i <? 3)%nat then (if (j <? 3)%nat then mget A i j else vget (f (j - 3)%nat) i)
    else if Nat.eqb i j then b else 0).
Global Arguments aff : simpl never.
Notation sek K A f := (aff K A f 1).

Lemma nr_aff K A f b : nr (aff K A f b) = (3 + K)%nat. Proof. reflexivity. Qed.
Lemma nc_aff K A f b : nc (aff K A f b) = (3 + K)%nat. Proof. reflexivity. Qed.
Global Hint Rewrite nr_aff nc_aff : mdims.

Lemma ent_aff_rot K A f b i j : (i < 3)%nat -> (j < 3)%nat -> ent (aff K A f b) i j = mget A i j.
Proof.
  intros Hi Hj. unfold aff. rewrite ent_mk by lia.
  destruct (Nat.ltb_spec i 3); [|lia]. destruct (Nat.ltb_spec j 3); [|lia]. reflexivity.
Qed.
Lemma ent_aff_col K A f b i k : (i < 3)%nat -> (k < K)%nat -> ent (aff K A f b) i (3 + k) = vget (f k) i.
Proof.
  intros Hi Hj. unfold aff. rewrite ent_mk by lia.
  destruct (Nat.ltb_spec i 3); [|lia]. destruct (Nat.ltb_spec (3 + k) 3); [lia|].
  replace (3 + k - 3)%nat with k by lia. reflexivity.
Qed.
Lemma ent_aff_bot K A f b i j : (3 <= i < 3 + K)%nat -> (j < 3 + K)%nat ->
  ent (aff K A f b) i j = if Nat.eqb i j then b else 0.
Proof.
  intros Hi Hj. unfold aff. rewrite ent_mk by lia. destruct (Nat.ltb_spec i 3); [lia|reflexivity].
Qed.
Ltac raff := repeat first [rewrite ent_aff_col by lia | rewrite ent_aff_rot by lia | rewrite ent_aff_bot by lia].
Lemma rot_aff K A f b : rot (aff K A f b) = A.
Proof. apply M3_ext; intros i j Hi Hj. unfold rot. rewrite mget_getM3, ent_aff_rot by lia. reflexivity. Qed.
Lemma col_aff K A f b k : (k < K)%nat -> col (aff K A f b) k = f k.
Proof.
  intros Hk. apply V3_ext; intros i Hi. unfold col. rewrite vget_getV3 by lia.
  rewrite Nat.add_0_l || idtac. change (0 + i)%nat with i. rewrite ent_aff_col by lia. reflexivity.
Qed.
Lemma aff_ext K A f g b : (forall k, (k < K)%nat -> f k = g k) -> aff K A f b = aff K A g b.
Proof.
  intros H. apply mat_ext; try reflexivity. intros i j Hi Hj. mdim.
  destruct (le_lt_dec 3 i); [raff; reflexivity|].
  destruct (le_lt_dec 3 j) as [L|L]; [|raff; reflexivity].
  replace j with (3 + (j - 3))%nat by lia. raff; rewrite H by lia. reflexivity.
Qed.

Lemma aff_mult K A f a B g b :
  aff K A f a *M aff K B g b = aff K (A *m B) (fun k => A *v g k +v b *s f k) (a * b).
Proof.
  apply mat_ext; try reflexivity. intros i j Hi Hj. mdim. rewrite ent_mult, nc_aff, sum_app.
  assert (forall k, (k < K)%nat -> ent (aff K B g b) (3 + k) j = if Nat.eqb (3 + k) j then b else 0) as HB
    by (intros; apply ent_aff_bot; lia).
  destruct (le_lt_dec 3 i) as [Li|Li].
  - rewrite (sum_zero 3).
    2:{ intros k Hk. rewrite ent_aff_bot by lia. destruct (Nat.eqb_spec i k); [lia|ring]. }
    rewrite ent_aff_bot by lia.
    rewrite (sum_delta' K (i - 3)); [|intros k Hk Hne|lia].
    + rewrite HB by lia. raff. replace (3 + (i - 3))%nat with i by lia. rewrite Nat.eqb_refl.
      destruct (Nat.eqb i j); ring.
    + rewrite ent_aff_bot by lia. destruct (Nat.eqb_spec i (3 + k)); [lia|ring].
  - cbn [sum]. destruct (le_lt_dec 3 j) as [Lj|Lj].
    + replace j with (3 + (j - 3))%nat by lia. set (j' := (j - 3)%nat) in *.
      rewrite (sum_delta' K j'); [|intros k Hk Hne|lia].
      * raff. rewrite Nat.eqb_refl.
        cbv beta; rewrite vget_add, vget_mv by lia.
        destruct i as [|[|[|i]]]; try lia; simpl; ring.
      * rewrite (ent_aff_bot K B) by lia. destruct (Nat.eqb_spec (3 + k) (3 + j')); [lia|ring].
    + rewrite (sum_zero K).
      2:{ intros k Hk. rewrite HB by lia. destruct (Nat.eqb_spec (3 + k) j); [lia|ring]. }
      raff. rewrite mget_mul by lia. ring.
Qed.

Lemma aff_eye K : meye (3 + K) = sek K mid (fun _ => vzero).
Proof.
  apply mat_ext; try reflexivity. intros i j Hi Hj. mdim. rewrite ent_eye by lia.
  destruct (le_lt_dec 3 i); [rewrite ent_aff_bot by lia; reflexivity|].
  destruct (le_lt_dec 3 j) as [L|L].
  - replace j with (3 + (j - 3))%nat by lia. rewrite ent_aff_col by lia.
    destruct (Nat.eqb_spec i (3 + (j - 3))); [lia|]. destruct i as [|[|[|i]]]; reflexivity.
  - rewrite ent_aff_rot by lia. destruct i as [|[|[|i]]]; try lia; destruct j as [|[|[|j]]]; try lia; reflexivity.
Qed.

Lemma SEK_sek K A f : SO3 A -> SEK K (sek K A f).
Proof.
  intros H. split; try reflexivity.
  - fold (rot (sek K A f)). rewrite rot_aff. exact H.
  - intros i j Hi Hj. apply ent_aff_bot; lia.
Qed.
Lemma SEK_form K X : SEK K X -> X = sek K (rot X) (col X).
Proof.
  intros [H1 H2 H3 H4]. apply mat_ext; mdim. intros i j Hi Hj.
  destruct (le_lt_dec 3 i) as [L|L]; [rewrite ent_aff_bot by lia; apply H4; lia|].
  destruct (le_lt_dec 3 j) as [M|M].
  - replace j with (3 + (j - 3))%nat by lia. rewrite ent_aff_col by lia. unfold col.
    rewrite vget_getV3 by lia. reflexivity.
  - rewrite ent_aff_rot by lia. unfold rot. rewrite mget_getM3 by lia. reflexivity.
Qed.
Lemma SEK_SO3 K X : SEK K X -> SO3 (rot X). Proof. intros H; apply H. Qed.

Lemma SEK_mult K X Y : SEK K X -> SEK K Y -> SEK K (X *M Y).
Proof.
  intros HX HY. rewrite (SEK_form K X HX), (SEK_form K Y HY), aff_mult, Rmult_1_l.
  apply SEK_sek. apply SO3_mul; [apply (SEK_SO3 K X HX)|apply (SEK_SO3 K Y HY)].
Qed.
Lemma SEK_eye K : SEK K (meye (3 + K)).
Proof. rewrite aff_eye. apply SEK_sek, SO3_id. Qed.

Definition sekinv (K : nat) (X : mat) : mat :=
  sek K (mtr (rot X)) (fun k => vneg (mtr (rot X) *v col X k)).
Lemma sekinv_spec K X : SEK K X -> inverse_of (3 + K) X (sekinv K X).
Proof.
  intros HX. pose proof (SEK_SO3 K X HX) as HR. unfold inverse_of, sekinv.
  split; [apply HX|]. split; [apply HX|]. split; [reflexivity|]. split; [reflexivity|].
  generalize (SEK_form K X HX).
  intros HF. set (A := rot X) in *. set (f := col X) in *. rewrite HF. clearbody A f.
  rewrite !aff_mult, Rmult_1_l, aff_eye. split.
  - rewrite (SO3_r _ HR). apply aff_ext. intros k Hk.
    rewrite mv_neg_r, SO3_rv by auto. ring3.
  - rewrite (proj1 HR). apply aff_ext. intros k Hk.
    generalize (mtr A *v f k). intros u. ring3.
Qed.
Lemma SEK_inv K X : SEK K X -> SEK K (sekinv K X).
Proof. intros H. apply SEK_sek, SO3_tr, (SEK_SO3 K X H). Qed.

(** ** Exp_SEK3 *)
Lemma put_col_sek K A f k u : (k < K)%nat ->
  put (sek K A f) 0 (3 + k) (ofV3 u) = sek K A (fun i => if Nat.eqb i k then u else f i).
Proof.
  intros Hk. apply mat_ext; try reflexivity. intros i j Hi Hj. mdim.
  assert (0 + nr (ofV3 u) <= nr (sek K A f))%nat by (mdim).
  assert (3 + k + nc (ofV3 u) <= nc (sek K A f))%nat by (mdim).
  destruct (le_lt_dec 3 i) as [L|L].
  { rewrite ent_put_out by (mdim). raff; reflexivity. }
  destruct (le_lt_dec 3 j) as [M|M].
  - replace j with (3 + (j - 3))%nat by lia. set (j' := (j - 3)%nat) in *. rewrite ent_aff_col by lia.
    destruct (Nat.eqb_spec j' k) as [->|Hne].
    + rewrite ent_put_in by (mdim).
      replace (3 + k - (3 + k))%nat with 0%nat by lia.
      rewrite Nat.sub_0_r, ent_ofV3 by lia. reflexivity.
    + rewrite ent_put_out by (mdim). rewrite ent_aff_col by lia. reflexivity.
  - rewrite ent_put_out by (mdim). raff; reflexivity.
Qed.
Lemma put_rot_eye K A : put (meye (3 + K)) 0 0 (ofM3 A) = sek K A (fun _ => vzero).
Proof.
  rewrite aff_eye. apply mat_ext; try reflexivity. intros i j Hi Hj. mdim.
  destruct (le_lt_dec 3 i) as [L|L].
  { rewrite ent_put_out by mdim. raff; reflexivity. }
  destruct (le_lt_dec 3 j) as [M|M].
  - rewrite ent_put_out by mdim. replace j with (3 + (j - 3))%nat by lia.
    raff. reflexivity.
  - rewrite ent_put_in by mdim. rewrite !Nat.sub_0_r, ent_ofM3, ent_aff_rot by lia. reflexivity.
Qed.

Definition expSEK (v : mat) : mat :=
  let w := getV3 v 0 0 in
  sek ((nr v - 3) / 3) (expSO3 w) (fun i => jl w *v getV3 v (3 + 3 * i) 0).

Lemma expSEK_loop K v J A : nr v = (3 + 3 * K)%nat -> nc v = 1%nat -> forall n, (n <= K)%nat ->
  foldM (fun X i => let* s := cgetV3 v (3 + 3 * i) 0 in cput X 0 (3 + i) (ofV3 (J *v s)))
    (sek K A (fun _ => vzero)) (seq 0 n)
  = Ok (sek K A (fun i => if (i <? n)%nat then J *v getV3 v (3 + 3 * i) 0 else vzero)).
Proof.
  intros Hr Hc. induction n as [|n IH]; intros Hn; [reflexivity|].
  rewrite seq_S, foldM_app, IH by lia. cbn [bind foldM]. change (0 + n)%nat with n.
  rewrite cgetV3_ok by lia. cbn [bind]. rewrite cput_ok by (mdim; lia). cbn [bind].
  rewrite put_col_sek by lia. f_equal. apply aff_ext. intros k Hk.
  destruct (Nat.eqb_spec k n) as [->|Hne].
  - destruct (Nat.ltb_spec n (S n)); [reflexivity|lia].
  - destruct (Nat.ltb_spec k n), (Nat.ltb_spec k (S n)); try lia; reflexivity.
Qed.

Lemma Exp_SEK3_ok K v : nr v = (3 + 3 * K)%nat -> nc v = 1%nat -> Exp_SEK3 v = Ok (expSEK v).
Proof.
  intros Hr Hc. unfold Exp_SEK3, expSEK. rewrite cgetV3_ok by lia. cbn [bind].
  assert ((nr v - 3) / 3 = K)%nat as ->.
  { symmetry; apply (Nat.div_unique _ 3 _ 0); lia. }
  set (w := getV3 v 0 0).
  assert ((if Rlt_dec (vnorm w) TOLERANCE then (mid, mid) else
     (mid +m (sin (vnorm w) / vnorm w) *ms skew w +m ((1 - cos (vnorm w)) / (vnorm w * vnorm w)) *ms (skew w *m skew w),
      mid +m ((1 - cos (vnorm w)) / (vnorm w * vnorm w)) *ms skew w
      +m ((vnorm w - sin (vnorm w)) / (vnorm w * vnorm w * vnorm w)) *ms (skew w *m skew w)))
     = (expSO3 w, jl w)) as E.
  { unfold expSO3, jl. destruct (Rlt_dec (vnorm w) TOLERANCE) as [H|H]; [reflexivity|].
    assert (vnorm w <> 0) by (pose proof TOLERANCE_pos; lra).
    f_equal; unfold Gam; cbn [sc fact]; simpl INR; rewrite Rinv_1, mscal_1; [reflexivity|].
    f_equal. f_equal. field; auto. }
  cbv zeta. rewrite E. rewrite cput_ok by (mdim; lia). cbn [bind].
  rewrite put_rot_eye, (expSEK_loop K) by lia. f_equal. apply aff_ext.
  intros k Hk. destruct (Nat.ltb_spec k K); [reflexivity|lia].
Qed.

Lemma expSEK_K K v : nr v = (3 + 3 * K)%nat ->
  expSEK v = sek K (expSO3 (getV3 v 0 0)) (fun i => jl (getV3 v 0 0) *v getV3 v (3 + 3 * i) 0).
Proof.
  intros H. unfold expSEK. assert ((nr v - 3) / 3 = K)%nat as ->; [|reflexivity].
  symmetry; apply (Nat.div_unique _ 3 _ 0); lia.
Qed.
Lemma expSEK_SEK K v : nr v = (3 + 3 * K)%nat -> SEK K (expSEK v).
Proof. intros H. rewrite (expSEK_K K) by auto. apply SEK_sek, expSO3_SO3. Qed.

Lemma getV3_opp v i : getV3 (mopp v) i 0 = vneg (getV3 v i 0).
Proof.
  apply V3_ext; intros a Ha. rewrite vget_getV3, ent_opp by auto.
  destruct a as [|[|[|a]]]; try lia; reflexivity.
Qed.

Lemma expR_jlT w : mtr (expSO3 w) *m jl w = mtr (jl w).
Proof.
  unfold expSO3, jl. destruct (Rlt_dec (vnorm w) TOLERANCE) as [|Hn].
  - rewrite mtr_id, mmul_id_l. reflexivity.
  - assert (vnorm w <> 0) as Hw by (pose proof TOLERANCE_pos; lra).
    set (t := vnorm w) in *.
    rewrite <- !Gam_neg. unfold Gam. rewrite vnorm_neg, skew_neg. fold t. cbn [sc fact]. simpl INR.
    rewrite !Rinv_1, !mscal_1.
    replace (-1 *ms skew w *m (-1 *ms skew w)) with (skew w *m skew w)
      by (rewrite mmul_scal_l, mmul_scal_r, mscal_scal; replace (-1 * -1) with 1 by ring; rewrite mscal_1; reflexivity).
    rewrite !mscal_scal.
    rewrite (poly_mul w (t * t)) by apply vnorm_sq.
    pose proof (sin2_cos2 t) as Hsc. unfold Rsqr in Hsc.
    f_equal; [f_equal|]; f_equal.
    + assert (sin t * sin t = 1 - cos t * cos t) as Hs by lra. field_simplify_eq; auto.
      replace (sin t ^ 2) with (1 - cos t * cos t) by (rewrite <- Hs; ring). ring.
    + assert (sin t * sin t = 1 - cos t * cos t) as Hs by lra. field_simplify_eq; auto.
      all: try replace (sin t ^ 2) with (1 - cos t * cos t) by (rewrite <- Hs; ring). all: ring.
Qed.

Lemma expSEK_opp K v : nr v = (3 + 3 * K)%nat -> expSEK (mopp v) = sekinv K (expSEK v).
Proof.
  intros H. rewrite !(expSEK_K K) by auto. unfold sekinv. rewrite rot_aff, getV3_opp, expSO3_neg.
  apply aff_ext. intros k Hk. rewrite col_aff by auto. rewrite getV3_opp, jl_neg, mv_neg_r.
  rewrite <- mv_mul, expR_jlT. reflexivity.
Qed.

(** ** Matrix exponential *)
Lemma hat_aff K v : nr v = (3 + 3 * K)%nat -> hat K v = aff K (skew (getV3 v 0 0)) (fun k => getV3 v (3 + 3 * k) 0) 0.
Proof.
  intros Hr. apply mat_ext; try reflexivity. intros i j Hi Hj. unfold hat in *. mdim.
  rewrite ent_mk by lia.
  destruct (Nat.ltb_spec i 3) as [L|L].
  - destruct (Nat.ltb_spec j 3) as [M|M].
    + rewrite ent_aff_rot by lia. reflexivity.
    + replace j with (3 + (j - 3))%nat at 2 by lia. rewrite ent_aff_col by lia.
      rewrite vget_getV3 by lia. reflexivity.
  - rewrite ent_aff_bot by lia. destruct (Nat.eqb i j); reflexivity.
Qed.
Lemma aff_pow K A f n :
  matpow (aff K A f 0) (S n) = aff K (mpow A (S n)) (fun k => mpow A n *v f k) 0.
Proof.
  induction n as [|n IH].
  - cbn [matpow]. rewrite nr_aff, mmult_eye_l by reflexivity. cbn [mpow]. rewrite mmul_id_l.
    apply aff_ext; intros; rewrite mv_id; reflexivity.
  - cbn [matpow] in *. rewrite IH, aff_mult, Rmult_0_l.
    apply aff_ext. intros k Hk. rewrite vscal_0, vadd_zero_r. reflexivity.
Qed.
Lemma is_series_sum3 (f g h : nat -> R) a b c : is_series f a -> is_series g b -> is_series h c ->
  is_series (fun n => f n + g n + h n) (a + b + c).
Proof.
  intros Hf Hg Hh. apply (is_series_plus (fun n => f n + g n) h (a + b) c); auto.
  apply (is_series_plus f g a b); auto.
Qed.
Lemma expm_aff K A u G0 G1 :
  matrix_series3 (fun n => / INR (fact (n + 0))) A G0 ->
  matrix_series3 (fun n => / INR (fact (n + 1))) A G1 ->
  is_expm (aff K A u 0) (sek K G0 (fun k => G1 *v u k)).
Proof.
  intros H0 H1. split; [reflexivity|split; [reflexivity|]]. intros i j Hi Hj. mdim.
  apply is_series_Reals.
  destruct (le_lt_dec 3 i) as [L|L].
  - rewrite ent_aff_bot by lia.
    set (f := fun n => / INR (fact n) * ent (matpow (aff K A u 0) n) i j).
    replace (if Nat.eqb i j then 1 else 0) with (f O).
    2:{ unfold f. cbn [matpow]. rewrite nr_aff, ent_eye by lia. simpl. destruct (Nat.eqb i j); field. }
    apply is_series_first. intros n. unfold f. rewrite aff_pow, ent_aff_bot by lia.
    destruct (Nat.eqb i j); ring.
  - destruct (le_lt_dec 3 j) as [M|M].
    + replace j with (3 + (j - 3))%nat by lia. set (k := (j - 3)%nat). assert (k < K)%nat by (unfold k; lia).
      rewrite ent_aff_col, vget_mv by lia.
      apply is_ser_unshift.
      match goal with |- is_series _ (?x - ?y) => replace (x - y) with x end.
      2:{ cbn [matpow]. rewrite nr_aff, ent_eye by lia. destruct (Nat.eqb_spec i (3 + k)); [lia|]. ring. }
      apply (is_ser_ext (fun n =>
        / INR (fact (n + 1)) * mget (mpow A n) i 0 * vget (u k) 0
        + / INR (fact (n + 1)) * mget (mpow A n) i 1 * vget (u k) 1
        + / INR (fact (n + 1)) * mget (mpow A n) i 2 * vget (u k) 2)).
      * intros n. rewrite aff_pow, ent_aff_col, vget_mv by lia.
        replace (n + 1)%nat with (S n) by lia. ring.
      * apply is_series_sum3; apply is_ser_scal_r; apply is_series_Reals; apply H1; lia.
    + rewrite ent_aff_rot by lia.
      apply (is_ser_ext (fun n => / INR (fact (n + 0)) * mget (mpow A n) i j)).
      * intros n. rewrite Nat.add_0_r. f_equal. destruct n as [|n].
        -- cbn [matpow mpow]. rewrite nr_aff, aff_eye, ent_aff_rot by lia. reflexivity.
        -- rewrite aff_pow, ent_aff_rot by lia. reflexivity.
      * apply is_series_Reals. apply H0; auto.
Qed.

Lemma expSEK_expm K v : nr v = (3 + 3 * K)%nat -> TOLERANCE <= vnorm (getV3 v 0 0) ->
  is_expm (hat K v) (expSEK v).
Proof.
  intros Hr Hw. rewrite hat_aff, (expSEK_K K) by auto.
  assert (vnorm (getV3 v 0 0) <> 0) by (pose proof TOLERANCE_pos; lra).
  apply expm_aff; unfold expSO3, jl; destruct (Rlt_dec (vnorm (getV3 v 0 0)) TOLERANCE); try lra;
    apply Gam_series; auto.
Qed.

(** ** Adjoint *)
Definition adj (K : nat) (A : M3) (f : nat -> V3) : mat :=
  mk (3 + 3 * K) (3 + 3 * K) (fun r c =>
    mget (if Nat.eqb (r / 3) (c / 3) then A
          else if Nat.eqb (c / 3) 0 then skew (f (r / 3 - 1)%nat) *m A else mzero) (r mod 3) (c mod 3)).
Global Arguments adj : simpl never.
Definition adjblk (A : M3) (f : nat -> V3) (i j : nat) : M3 :=
  if Nat.eqb i j then A else if Nat.eqb j 0 then skew (f (i - 1)%nat) *m A else mzero.
Lemma nr_adj K A f : nr (adj K A f) = (3 + 3 * K)%nat. Proof. reflexivity. Qed.
Lemma nc_adj K A f : nc (adj K A f) = (3 + 3 * K)%nat. Proof. reflexivity. Qed.
Global Hint Rewrite nr_adj nc_adj : mdims.
Lemma divmod3 i a : (a < 3)%nat -> ((3 * i + a) / 3 = i /\ (3 * i + a) mod 3 = a)%nat.
Proof.
  intros H. split.
  - symmetry; apply (Nat.div_unique _ 3 _ a); lia.
  - symmetry; apply (Nat.mod_unique _ 3 i a); lia.
Qed.
Lemma adj_blk K A f i j : (i < 1 + K)%nat -> (j < 1 + K)%nat ->
  getM3 (adj K A f) (3 * i) (3 * j) = adjblk A f i j.
Proof.
  intros Hi Hj. apply M3_ext; intros a b Ha Hb. rewrite mget_getM3 by auto. unfold adj.
  rewrite ent_mk by lia.
  destruct (divmod3 i a Ha) as [-> ->]. destruct (divmod3 j b Hb) as [-> ->]. reflexivity.
Qed.
Lemma adj_ext_blocks K A f M : nr M = (3 + 3 * K)%nat -> nc M = (3 + 3 * K)%nat ->
  (forall i j, (i < 1 + K)%nat -> (j < 1 + K)%nat -> getM3 M (3 * i) (3 * j) = adjblk A f i j) ->
  M = adj K A f.
Proof.
  intros H1 H2 H. apply (mat_ext_blocks _ _ (1 + K) (1 + K)); mdim.
  intros i j Hi Hj. rewrite adj_blk by auto. apply H; auto.
Qed.

Lemma Adjoint_loop K X A : nc X = (3 + K)%nat -> (3 <= nr X)%nat -> forall n, (n <= K)%nat ->
  exists M, foldM (fun Adj i =>
    let* Adj := cput Adj (3 + 3 * i) (3 + 3 * i) (ofM3 A) in
    let* x := cgetV3 X 0 (3 + i) in
    cput Adj (3 + 3 * i) 0 (ofM3 (skew x *m A))) (put (mO (3 + 3 * K) (3 + 3 * K)) 0 0 (ofM3 A)) (seq 0 n) = Ok M
  /\ nr M = (3 + 3 * K)%nat /\ nc M = (3 + 3 * K)%nat
  /\ forall i j, (i < 1 + K)%nat -> (j < 1 + K)%nat -> getM3 M (3 * i) (3 * j) =
       if (i <? 1 + n)%nat then adjblk A (col X) i j else mzero.
Proof.
  intros Hc Hr. induction n as [|n IH]; intros Hn.
  - eexists; split; [reflexivity|]. split; [reflexivity|]. split; [reflexivity|].
    intros i j Hi Hj. rewrite getM3_put by (mdim; lia). rewrite getM3_ofM3, getM3_O. unfold adjblk.
    destruct (Nat.ltb_spec i (1 + 0)).
    + assert (i = 0)%nat as -> by lia. destruct (Nat.eqb_spec (3 * 0) 0); [|lia].
      destruct (Nat.eqb_spec (3 * j) 0); destruct (Nat.eqb_spec 0 j); try lia; cbn [andb]; [reflexivity|].
      destruct (Nat.eqb_spec j 0); [lia|reflexivity].
    + destruct (Nat.eqb_spec (3 * i) 0); [lia|reflexivity].
  - destruct IH as (M & HM & HM1 & HM2 & HM3); [lia|].
    rewrite seq_S, foldM_app, HM. cbn [bind foldM]. change (0 + n)%nat with n.
    rewrite cput_ok by (mdim; lia). cbn [bind]. rewrite cgetV3_ok by (mdim; lia). cbn [bind].
    rewrite cput_ok by (mdim; lia). cbn [bind].
    eexists; split; [reflexivity|]. split; [mdim|]. split; [mdim|].
    intros i j Hi Hj. rewrite !getM3_put by (mdim; lia). rewrite !getM3_ofM3, HM3 by auto.
    replace (3 + 3 * n)%nat with (3 * S n)%nat by lia. unfold adjblk.
    destruct (Nat.eqb_spec (3 * i) (3 * S n)) as [Ei|Ei].
    + assert (i = S n) as -> by lia. cbn [andb]. destruct (Nat.ltb_spec (S n) (1 + S n)); [|lia].
      destruct (Nat.ltb_spec (S n) (1 + n)); [lia|].
      destruct (Nat.eqb_spec (3 * j) 0) as [Ej|Ej].
      * assert (j = 0)%nat as -> by lia. destruct (Nat.eqb_spec (S n) 0); [lia|]. cbn [Nat.eqb].
        replace (S n - 1)%nat with n by lia. reflexivity.
      * destruct (Nat.eqb_spec (S n) j) as [E|E].
        -- subst j. rewrite Nat.eqb_refl. reflexivity.
        -- destruct (Nat.eqb_spec (3 * j) (3 * S n)); [lia|]. destruct (Nat.eqb_spec j 0); [lia|]. reflexivity.
    + cbn [andb]. destruct (Nat.ltb_spec i (1 + n)), (Nat.ltb_spec i (1 + S n)); try lia; reflexivity.
Qed.
Lemma Adjoint_SEK3_ok K X : nc X = (3 + K)%nat -> (3 <= nr X)%nat ->
  Adjoint_SEK3 X = Ok (adj K (rot X) (col X)).
Proof.
  intros Hc Hr. unfold Adjoint_SEK3. rewrite Hc. replace (3 + K - 3)%nat with K by lia.
  destruct (Nat.leb_spec 3 (3 + K)); [|lia]. simpl check. cbn [bind].
  rewrite cgetM3_ok by lia. cbn [bind]. rewrite cput_ok by (mdim; lia). cbn [bind].
  fold (rot X).
  destruct (Adjoint_loop K X (rot X) Hc Hr K (le_n K)) as (M & HM & HM1 & HM2 & HM3).
  rewrite HM. f_equal. apply adj_ext_blocks; auto. intros i j Hi Hj. rewrite HM3 by auto.
  destruct (Nat.ltb_spec i (1 + K)); [reflexivity|lia].
Qed.

Lemma msum_two n k l f : (forall i, (i < n)%nat -> i <> k -> i <> l -> f i = mzero) -> (k < l)%nat -> (l < n)%nat ->
  msum n f = f k +m f l.
Proof.
  intros H Hkl Hl. replace n with ((k + 1) + (n - k - 1))%nat by lia. rewrite msum_app.
  rewrite (msum_delta (k + 1) k) by (intros; try apply H; lia).
  rewrite (msum_delta (n - k - 1) (l - k - 1)) by (intros; try apply H; lia).
  repeat f_equal; lia.
Qed.
Lemma vsum_two n k l f : (forall i, (i < n)%nat -> i <> k -> i <> l -> f i = vzero) -> (k < l)%nat -> (l < n)%nat ->
  vsum n f = f k +v f l.
Proof.
  intros H Hkl Hl. replace n with ((k + 1) + (n - k - 1))%nat by lia. rewrite vsum_app.
  rewrite (vsum_delta (k + 1) k) by (intros; try apply H; lia).
  rewrite (vsum_delta (n - k - 1) (l - k - 1)) by (intros; try apply H; lia).
  repeat f_equal; lia.
Qed.

Lemma adj_mult K A f B g : SO3 A ->
  adj K A f *M adj K B g = adj K (A *m B) (fun k => A *v g k +v f k).
Proof.
  intros HA. apply adj_ext_blocks; mdim. intros i j Hi Hj.
  rewrite (getM3_mult _ _ _ _ (1 + K)) by mdim.
  destruct (Nat.eq_dec i 0) as [->|Hi0].
  - rewrite (msum_delta _ 0); [|intros k Hk Hne|lia].
    + rewrite !adj_blk by lia. unfold adjblk. change (Nat.eqb 0 0) with true. cbv iota.
      destruct (Nat.eqb_spec 0 j) as [<-|Hj0]; [reflexivity|].
      destruct (Nat.eqb_spec j 0); [lia|]. apply mmul_zero_r.
    + rewrite adj_blk by lia. unfold adjblk. destruct (Nat.eqb_spec 0 k); [lia|].
      destruct (Nat.eqb_spec k 0); [lia|]. apply mmul_zero_l.
  - rewrite (msum_two _ 0 i); [|intros k Hk Hne Hne2|lia|lia].
    + rewrite !adj_blk by lia. unfold adjblk. change (Nat.eqb 0 0) with true. rewrite (Nat.eqb_refl i). cbv iota.
      destruct (Nat.eqb_spec i 0); [lia|].
      destruct (Nat.eqb_spec 0 j) as [<-|Hj0].
      * destruct (Nat.eqb_spec i 0); [lia|]. change (Nat.eqb 0 0) with true. cbv iota.
        rewrite skew_add, SO3_skew by auto. rewrite mmul_add_l.
        assert (A *m skew (g (i - 1)%nat) *m mtr A *m (A *m B) = A *m (skew (g (i - 1)%nat) *m B)) as ->.
        { rewrite mmul_assoc, <- (mmul_assoc (A *m skew (g (i - 1)%nat))), (proj1 HA), mmul_id_r, mmul_assoc. reflexivity. }
        rewrite madd_comm. f_equal. rewrite mmul_assoc. reflexivity.
      * destruct (Nat.eqb_spec j 0); [lia|]. rewrite mmul_zero_r, madd_zero_l.
        destruct (Nat.eqb i j); [reflexivity|apply mmul_zero_r].
    + rewrite (adj_blk K A) by lia. unfold adjblk. destruct (Nat.eqb_spec i k); [congruence|].
      destruct (Nat.eqb_spec k 0); [congruence|]. apply mmul_zero_l.
Qed.
Lemma adj_eye K : adj K mid (fun _ => vzero) = meye (3 + 3 * K).
Proof.
  symmetry. apply adj_ext_blocks; mdim. intros i j Hi Hj. rewrite getM3_eye by lia. unfold adjblk.
  rewrite skew_zero, mmul_zero_l. destruct (Nat.eqb i j), (Nat.eqb j 0); reflexivity.
Qed.
Lemma adj_ext K A f g : (forall k, (k < K)%nat -> f k = g k) -> adj K A f = adj K A g.
Proof.
  intros H. apply adj_ext_blocks; mdim. intros i j Hi Hj. rewrite adj_blk by auto. unfold adjblk.
  destruct (Nat.eqb_spec i j); auto. destruct (Nat.eqb_spec j 0); auto. rewrite H by lia. reflexivity.
Qed.

Definition Ad (K : nat) (X : mat) : mat := adj K (rot X) (col X).

Lemma Ad_mult K X Y : SEK K X -> SEK K Y -> Ad K (X *M Y) = Ad K X *M Ad K Y.
Proof.
  intros HX HY. unfold Ad. rewrite adj_mult by apply (SEK_SO3 K X HX).
  rewrite (SEK_form K X HX), (SEK_form K Y HY), aff_mult, !rot_aff. apply adj_ext. intros k Hk.
  rewrite !col_aff by auto. rewrite vscal_1. reflexivity.
Qed.
Lemma Ad_eye K : Ad K (meye (3 + K)) = meye (3 + 3 * K).
Proof.
  unfold Ad. rewrite aff_eye, rot_aff. rewrite <- adj_eye. apply adj_ext. intros; rewrite col_aff by auto. reflexivity.
Qed.
Lemma Ad_inv K X : SEK K X -> inverse_of (3 + 3 * K) (Ad K X) (Ad K (sekinv K X)).
Proof.
  intros HX. pose proof (SEK_inv K X HX) as HI. destruct (sekinv_spec K X HX) as (_ & _ & _ & _ & E1 & E2).
  unfold inverse_of. split; [reflexivity|]. split; [reflexivity|]. split; [reflexivity|]. split; [reflexivity|].
  rewrite <- !Ad_mult, E1, E2 by auto. split; apply Ad_eye.
Qed.
Lemma getV3_Ad0 K A f v : nr v = (3 + 3 * K)%nat -> getV3 (adj K A f *M v) 0 0 = A *v getV3 v 0 0.
Proof.
  intros Hv. change 0%nat with (3 * 0)%nat at 1. rewrite (getV3_mult _ _ _ _ (1 + K)) by mdim.
  rewrite (vsum_delta _ 0); [|intros k Hk Hne|lia].
  - rewrite adj_blk by lia. reflexivity.
  - rewrite adj_blk by lia. unfold adjblk. destruct (Nat.eqb_spec 0 k); [lia|].
    destruct (Nat.eqb_spec k 0); [lia|]. apply mv_zero_l.
Qed.
Lemma getV3_AdS K A f v k : nr v = (3 + 3 * K)%nat -> (k < K)%nat ->
  getV3 (adj K A f *M v) (3 + 3 * k) 0 = skew (f k) *v (A *v getV3 v 0 0) +v A *v getV3 v (3 + 3 * k) 0.
Proof.
  intros Hv Hk. replace (3 + 3 * k)%nat with (3 * S k)%nat by lia. rewrite (getV3_mult _ _ _ _ (1 + K)) by mdim.
  rewrite (vsum_two _ 0 (S k)); [|intros i Hi Hne Hne2|lia|lia].
  - rewrite !adj_blk by lia. unfold adjblk. cbn [Nat.eqb]. rewrite (Nat.eqb_refl k).
    replace (S k - 1)%nat with k by lia. rewrite mv_mul. reflexivity.
  - rewrite adj_blk by lia. unfold adjblk. destruct (Nat.eqb_spec (S k) i); [congruence|].
    destruct (Nat.eqb_spec i 0); [congruence|]. apply mv_zero_l.
Qed.
Lemma cross_anti u v : skew u *v v = vneg (skew v *v u).
Proof. unfold skew. ring3. Qed.
Lemma Ad_conj K X v : SEK K X -> nr v = (3 + 3 * K)%nat ->
  X *M hat K v *M sekinv K X = hat K (Ad K X *M v).
Proof.
  intros HX Hv. pose proof (SEK_SO3 K X HX) as HR. unfold sekinv.
  rewrite (SEK_form K X HX) at 1. rewrite (hat_aff K v), (hat_aff K (Ad K X *M v)) by (unfold Ad; mdim).
  rewrite !aff_mult. unfold Ad. rewrite getV3_Ad0, SO3_skew by auto.
  replace (1 * 0 * 1) with 0 by ring. apply aff_ext. intros k Hk.
  rewrite getV3_AdS by auto. rewrite vscal_0, vadd_zero_r, vscal_1. f_equal.
  rewrite cross_anti, SO3_skew, mv_neg_r by auto. rewrite !mv_mul. reflexivity.
Qed.
