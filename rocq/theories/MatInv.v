(** Matrix inverse by elimination with pivot search: the model of Eigen's
    [inverse()].  Returns [None] exactly on singular matrices. *)
From Coq Require Import Reals Lra Lia Arith List Bool.
From Verif Require Import Res Vec3 Mat.
Local Open Scope R_scope.

Definition skip (i r : nat) : nat := if (r <? i)%nat then r else S r.
Definition unskip (i j : nat) : nat := if (j <? i)%nat then j else (j - 1)%nat.

Fixpoint pivot (n : nat) (f : nat -> R) : option nat :=
  match n with
  | O => None
  | S n => match pivot n f with
           | Some i => Some i
           | None => if Req_EM_T (f n) 0 then None else Some n
           end
  end.

(** remaining matrix after eliminating column 0 with pivot row i *)
Definition schur (A : nat -> nat -> R) (i r c : nat) : R :=
  A (skip i r) (S c) - A (skip i r) O * (A i (S c) / A i O).

Fixpoint finv (n : nat) (A : nat -> nat -> R) : option (nat -> nat -> R) :=
  match n with
  | O => Some (fun _ _ => 0)
  | S m =>
    match pivot (S m) (fun i => A i O) with
    | None => None
    | Some i =>
      match finv m (schur A i) with
      | None => None
      | Some C =>
        let p := A i O in
        let E1 := fun c j => if Nat.eqb j i
                             then - (sum m (fun r => C c r * A (skip i r) O) / p)
                             else C c (unskip i j) in
        Some (fun row j =>
          match row with
          | O => (if Nat.eqb j i then 1 / p else 0) - sum m (fun c => A i (S c) / p * E1 c j)
          | S c => E1 c j
          end)
      end
    end
  end.

Definition minv (A : mat) : option mat :=
  if Nat.eqb (nr A) (nc A)
  then match finv (nr A) (ent A) with Some f => Some (mk (nr A) (nr A) f) | None => None end
  else None.

(** Eigen asserts on a non-square matrix; on a singular one the C++ result is inf/NaN. *)
Definition cinv (A : mat) : res mat :=
  if Nat.eqb (nr A) (nc A) then of_opt (minv A) SingularInverse else Fail EigenAssert.

Lemma pivot_some n f i : pivot n f = Some i -> (i < n)%nat /\ f i <> 0.
Proof.
  induction n as [|n IH]; simpl; [discriminate|].
  destruct (pivot n f) as [k|] eqn:E.
  - intros H; injection H as ->. destruct (IH eq_refl); split; auto.
  - destruct (Req_EM_T (f n) 0); [discriminate|]. intros H; injection H as <-. split; auto.
Qed.
Lemma pivot_none n f : pivot n f = None -> forall i, (i < n)%nat -> f i = 0.
Proof.
  induction n as [|n IH]; simpl; [lia|].
  destruct (pivot n f) eqn:E; [discriminate|].
  destruct (Req_EM_T (f n) 0) as [H0|]; [|discriminate]. intros _ i Hi.
  destruct (Nat.eq_dec i n) as [->|]; auto. apply IH; auto; lia.
Qed.

Lemma sum_skip n i f : (i <= n)%nat -> sum (S n) f = f i + sum n (fun r => f (skip i r)).
Proof.
  intros Hi. replace (S n) with (i + (1 + (n - i)))%nat by lia.
  rewrite !sum_app. cbn [sum]. rewrite Nat.add_0_r.
  replace n with (i + (n - i))%nat at 2 by lia. rewrite sum_app.
  rewrite (sum_ext i (fun r => f (skip i r)) f).
  2:{ intros r Hr; unfold skip. destruct (Nat.ltb_spec r i); [reflexivity|lia]. }
  rewrite (sum_ext (n - i) (fun r => f (skip i (i + r))) (fun r => f (i + (1 + r)))%nat).
  2:{ intros r Hr; unfold skip. destruct (Nat.ltb_spec (i + r) i); [lia|f_equal; lia]. }
  ring.
Qed.
Lemma skip_unskip i j : j <> i -> skip i (unskip i j) = j.
Proof.
  intros H; unfold skip, unskip. destruct (Nat.ltb_spec j i).
  - destruct (Nat.ltb_spec j i); lia.
  - destruct (Nat.ltb_spec (j - 1) i); lia.
Qed.
Lemma unskip_skip i r : unskip i (skip i r) = r.
Proof.
  unfold skip, unskip. destruct (Nat.ltb_spec r i).
  - destruct (Nat.ltb_spec r i); lia.
  - destruct (Nat.ltb_spec (S r) i); lia.
Qed.
Lemma skip_ne i r : skip i r <> i.
Proof. unfold skip. destruct (Nat.ltb_spec r i); lia. Qed.
Lemma unskip_lt i j n : (i < S n)%nat -> (j < S n)%nat -> j <> i -> (unskip i j < n)%nat.
Proof. intros; unfold unskip. destruct (Nat.ltb_spec j i); lia. Qed.
Lemma skip_lt i r n : (r < n)%nat -> (skip i r < S n)%nat.
Proof. intros; unfold skip. destruct (Nat.ltb_spec r i); lia. Qed.
Lemma skip_inj i r s : skip i r = skip i s -> r = s.
Proof. unfold skip. destruct (Nat.ltb_spec r i), (Nat.ltb_spec s i); lia. Qed.

Definition fker (n : nat) (A : nat -> nat -> R) : Prop :=
  forall x, (forall i, (i < n)%nat -> sum n (fun j => A i j * x j) = 0) ->
  forall j, (j < n)%nat -> x j = 0.

(** kernel vectors of A restricted: A_{skip r} x = u_r (A_i x)/p + B_r x' *)
Lemma schur_row m A i r x : A i O <> 0 ->
  sum (S m) (fun j => A (skip i r) j * x j) =
  A (skip i r) O / A i O * sum (S m) (fun j => A i j * x j) + sum m (fun c => schur A i r c * x (S c)).
Proof.
  intros Hp. rewrite !sum_S_l.
  rewrite (sum_ext m (fun c => schur A i r c * x (S c))
    (fun c => A (skip i r) (S c) * x (S c) - A (skip i r) O / A i O * (A i (S c) * x (S c))))
    by (intros; unfold schur; field; auto).
  rewrite sum_minus, sum_scal_l. field; auto.
Qed.

Lemma finv_ker n : forall A, finv n A <> None <-> fker n A.
Proof.
  induction n as [|m IH]; intros A.
  - simpl. split; [intros _ x _ j Hj; lia | discriminate].
  - cbn [finv]. destruct (pivot (S m) (fun i => A i O)) as [i|] eqn:Ep.
    + apply pivot_some in Ep. destruct Ep as [Hi Hp].
      destruct (finv m (schur A i)) as [C|] eqn:EC.
      * split; [intros _|discriminate].
        assert (fker m (schur A i)) as HB by (apply IH; rewrite EC; discriminate).
        intros x Hx.
        assert (forall c, (c < m)%nat -> x (S c) = 0) as Hc.
        { apply (HB (fun c => x (S c))). intros r Hr.
          pose proof (schur_row m A i r x Hp) as E.
          rewrite (Hx (skip i r)), (Hx i) in E by (auto; apply skip_lt; auto). lra. }
        intros [|j] Hj; [|apply Hc; lia].
        pose proof (Hx i Hi) as E. rewrite sum_S_l, sum_zero in E.
        -- rewrite Rplus_0_r in E. apply Rmult_integral in E. tauto.
        -- intros c Hc'. rewrite Hc by auto. ring.
      * split; [congruence|]. intros HA. exfalso.
        assert (fker m (schur A i)) as HB.
        { intros x Hx c Hc.
          set (x' := fun j => match j with O => - sum m (fun c => A i (S c) * x c) / A i O | S c => x c end).
          apply (HA x') with (j := S c); [|lia].
          assert (sum (S m) (fun j => A i j * x' j) = 0) as E0.
          { rewrite sum_S_l. unfold x'. field; auto. }
          intros r Hr. destruct (Nat.eq_dec r i) as [->|Hne]; [exact E0|].
          rewrite <- (skip_unskip i r Hne), schur_row, E0 by auto.
          unfold x'. rewrite Hx by (apply unskip_lt; auto). ring. }
        apply IH in HB. congruence.
    + split; [congruence|]. intros HA. exfalso.
      assert (1 = 0); [|lra].
      apply (HA (fun j => if Nat.eqb j 0 then 1 else 0)) with (j := O); [|lia].
      intros i Hi. rewrite sum_S_l, sum_zero.
      * simpl. rewrite (pivot_none _ _ Ep i Hi). ring.
      * intros; simpl; ring.
Qed.

Lemma finv_right n : forall A E, finv n A = Some E -> forall r j, (r < n)%nat -> (j < n)%nat ->
  sum n (fun k => A r k * E k j) = if Nat.eqb r j then 1 else 0.
Proof.
  induction n as [|m IH]; intros A E HE r j Hr Hj; [lia|].
  cbn [finv] in HE. destruct (pivot (S m) (fun i => A i O)) as [i|] eqn:Ep; [|discriminate].
  apply pivot_some in Ep. destruct Ep as [Hi Hp].
  destruct (finv m (schur A i)) as [C|] eqn:EC; [|discriminate].
  specialize (IH _ _ EC). injection HE as <-.
  set (E1 := fun c j => if Nat.eqb j i then - (sum m (fun r => C c r * A (skip i r) O) / A i O)
                        else C c (unskip i j)).
  set (E := fun row j => match row with
          | O => (if Nat.eqb j i then 1 / A i O else 0) - sum m (fun c => A i (S c) / A i O * E1 c j)
          | S c => E1 c j end).
  change (sum (S m) (fun k => A r k * E k j) = if Nat.eqb r j then 1 else 0).
  assert (sum (S m) (fun k => A i k * E k j) = if Nat.eqb j i then 1 else 0) as Ei.
  { rewrite sum_S_l. unfold E.
    rewrite (sum_ext m (fun c => A i (S c) / A i O * E1 c j) (fun c => / A i O * (A i (S c) * E1 c j)))
      by (intros; field; auto).
    rewrite sum_scal_l. destruct (Nat.eqb j i); field; auto. }
  destruct (Nat.eq_dec r i) as [->|Hne].
  - rewrite Ei, Nat.eqb_sym. reflexivity.
  - pose proof (schur_row m A i (unskip i r) (fun k => E k j) Hp) as HH.
    rewrite (skip_unskip i r Hne) in HH. rewrite HH, Ei. clear HH.
    change (A r O / A i O * (if Nat.eqb j i then 1 else 0)
            + sum m (fun c => schur A i (unskip i r) c * E1 c j) = if Nat.eqb r j then 1 else 0).
    pose proof (unskip_lt i r m Hi Hr Hne) as Hs. set (s := unskip i r) in *.
    unfold E1. destruct (Nat.eqb_spec j i) as [->|Hji].
    + rewrite (sum_ext m _ (fun c => - / A i O * sum m (fun q => schur A i s c * C c q * A (skip i q) O))).
      2:{ intros c _. rewrite (sum_ext m (fun q => schur A i s c * C c q * A (skip i q) O)
            (fun q => schur A i s c * (C c q * A (skip i q) O))) by (intros; ring).
          rewrite sum_scal_l. field; auto. }
      rewrite sum_scal_l, sum_swap.
      rewrite (sum_ext m _ (fun q => if Nat.eqb q s then A (skip i q) O else 0)).
      2:{ intros q Hq. rewrite sum_scal_r, (IH s q Hs Hq), Nat.eqb_sym.
          destruct (Nat.eqb q s); ring. }
      rewrite sum_delta by auto.
      assert (skip i s = r) as -> by (apply skip_unskip; auto).
      destruct (Nat.eqb_spec r i); [congruence|]. field; auto.
    + rewrite (IH s (unskip i j) Hs (unskip_lt i j m Hi Hj Hji)). rewrite Rmult_0_r, Rplus_0_l.
      destruct (Nat.eqb_spec s (unskip i j)) as [Hx|Hx]; destruct (Nat.eqb_spec r j) as [Hy|Hy]; auto.
      * exfalso; apply Hy. rewrite <- (skip_unskip i r Hne), <- (skip_unskip i j Hji).
        unfold s in Hx. rewrite Hx. reflexivity.
      * exfalso; apply Hx. unfold s; rewrite Hy; reflexivity.
Qed.

Definition ker0 (A : mat) : Prop :=
  forall x : mat, nr x = nc A -> nc x = 1%nat -> A *M x = mO (nr A) 1 -> x = mO (nc A) 1.

Lemma ker0_fker A n : nr A = n -> nc A = n -> ker0 A <-> fker n (ent A).
Proof.
  intros Hr Hc. split; intros H.
  - intros x Hx j Hj.
    pose proof (H (mk n 1 (fun i _ => x i))) as H'.
    assert (mk n 1 (fun i _ => x i) = mO n 1) as E.
    { rewrite <- Hc at 2. apply H'; try (rewrite ?nr_mk; auto; fail).
      apply mat_ext; mdim. intros i k Hi Hk. rewrite ent_mult, ent_O, Hc.
      rewrite <- (Hx i) by lia. apply sum_ext; intros l Hl. rewrite ent_mk by auto. reflexivity. }
    apply (f_equal (fun M => ent M j 0)) in E. rewrite ent_mk, ent_O in E by lia. exact E.
  - intros x Hxr Hxc HAx. apply mat_ext; mdim. intros i k Hi Hk. rewrite ent_O.
    assert (k = 0)%nat as -> by lia.
    apply (H (fun i => ent x i 0)); [|lia]. intros q Hq.
    apply (f_equal (fun M => ent M q 0)) in HAx. rewrite ent_mult, ent_O, Hc in HAx. exact HAx.
Qed.

Lemma minv_some A B : minv A = Some B ->
  nr A = nc A /\ nr B = nr A /\ nc B = nr A /\ A *M B = meye (nr A) /\ B *M A = meye (nr A).
Proof.
  unfold minv. destruct (Nat.eqb_spec (nr A) (nc A)) as [Hsq|]; [|discriminate].
  destruct (finv (nr A) (ent A)) as [f|] eqn:E; [|discriminate].
  intros H; injection H as <-. mdim.
  assert (A *M mk (nr A) (nr A) f = meye (nr A)) as HR.
  { apply mat_ext; mdim. intros i j Hi Hj. rewrite ent_mult, ent_eye by auto.
    rewrite <- (finv_right _ _ _ E i j) by auto. rewrite <- Hsq.
    apply sum_ext; intros k Hk. rewrite ent_mk by auto. reflexivity. }
  do 4 (split; [auto|]).
  assert (ker0 A) as HK.
  { apply (ker0_fker A (nr A)); auto. apply finv_ker; rewrite E; discriminate. }
  set (F := mk (nr A) (nr A) f) in *.
  (* A (F A - I) = 0 column by column *)
  apply mat_ext; [mdim; reflexivity|mdim|]. intros i j Hi Hj. change (nr (F *M A)) with (nr A) in Hi. change (nc (F *M A)) with (nc A) in Hj.
  set (x := mk (nr A) 1 (fun r _ => ent (F *M A -M meye (nr A)) r j)).
  assert (x = mO (nc A) 1) as Ex.
  { apply HK; [exact Hsq | reflexivity |].
    apply mat_ext; [reflexivity|reflexivity|]. intros q k Hq Hk. rewrite ent_O, ent_mult.
    rewrite (sum_ext _ _ (fun l => ent A q l * ent (F *M A -M meye (nr A)) l j)).
    2:{ intros l Hl. unfold x. rewrite ent_mk; [reflexivity|lia|exact Hk]. }
    rewrite <- ent_mult, mmult_minus_r by (mdim; auto).
    rewrite mmult_assoc, HR, mmult_eye_l, mmult_eye_r, mminus_diag by auto. apply ent_O. }
  apply (f_equal (fun M => ent M i 0)) in Ex. unfold x in Ex.
  rewrite ent_mk, ent_O, ent_minus in Ex by (mdim; auto). lra.
Qed.

Lemma minv_ker A : nr A = nc A -> (minv A <> None <-> ker0 A).
Proof.
  intros Hsq. rewrite (ker0_fker A (nr A)) by auto. rewrite <- finv_ker.
  unfold minv. rewrite (proj2 (Nat.eqb_eq _ _) Hsq).
  destruct (finv (nr A) (ent A)); split; congruence.
Qed.

(** uniqueness: any two-sided (even one-sided) inverse is the one computed *)
Lemma minv_unique A B n : nr A = n -> nc A = n -> nr B = n -> nc B = n ->
  B *M A = meye n -> minv A = Some B.
Proof.
  intros H1 H2 H3 H4 HBA.
  assert (ker0 A) as HK.
  { intros x Hx1 Hx2 E. rewrite <- (mmult_eye_l x n) by congruence.
    rewrite <- HBA, <- mmult_assoc, E, mmult_O_r. congruence. }
  destruct (minv A) as [C|] eqn:E.
  - apply minv_some in E. destruct E as (_ & E1 & E2 & E3 & E4). f_equal.
    rewrite <- (mmult_eye_l C n) by congruence. rewrite <- HBA, <- mmult_assoc, E3, H1.
    apply mmult_eye_r; auto.
  - apply minv_ker in HK; congruence.
Qed.

Lemma minv_none_iff A : nr A = nc A ->
  (minv A = None <-> ~ exists B, nr B = nr A /\ nc B = nr A /\ A *M B = meye (nr A) /\ B *M A = meye (nr A)).
Proof.
  intros Hsq. split.
  - intros HN (B & H1 & H2 & H3 & H4).
    pose proof (minv_unique A B (nr A) eq_refl (eq_sym Hsq) H1 H2 H4). congruence.
  - intros H. destruct (minv A) as [B|] eqn:E; auto. exfalso; apply H. exists B.
    apply minv_some in E. tauto.
Qed.
