(** More (semi)definiteness: reindexing and block-diagonal matrices. *)
From Coq Require Import Reals List Bool Lia Lra.
From Verif Require Import Res Vec3 Mat LieGroup MatInv Psd Spec LieSO3 LieSEK Blk.
Import ListNotations.
Local Open Scope R_scope.

(** ** reindexing with a partial index map *)
Definition reix (n : nat) (f : nat -> option nat) (Q : mat) : mat :=
  mk n n (fun i j => match f i, f j with Some a, Some b => ent Q a b | _, _ => 0 end).
Lemma sum_one n k (g : nat -> R) : sum n (fun a => (if Nat.eqb k a then 1 else 0) * g a) = if (k <? n)%nat then g k else 0.
Proof.
  destruct (Nat.ltb_spec k n).
  - rewrite (sum_delta' n k); auto.
    + rewrite Nat.eqb_refl; ring.
    + intros i Hi Hne. destruct (Nat.eqb_spec k i); [congruence|ring].
  - apply sum_zero. intros i Hi. destruct (Nat.eqb_spec k i); [lia|ring].
Qed.
Definition selix (n m : nat) (f : nat -> option nat) : mat :=
  mk n m (fun i a => match f i with Some b => if Nat.eqb b a then 1 else 0 | None => 0 end).
Lemma reix_eq n f Q m : nr Q = m -> nc Q = m -> reix n f Q = selix n m f *M Q *M mT (selix n m f).
Proof.
  intros H1 H2. apply mat_ext; [reflexivity|reflexivity|]. intros i j Hi Hj. change (i < n)%nat in Hi. change (j < n)%nat in Hj.
  unfold reix. rewrite ent_mk by auto. rewrite ent_mult. mdim. rewrite H2.
  assert (forall b, (b < m)%nat -> ent (selix n m f *M Q) i b = match f i with Some a => ent Q a b | None => 0 end) as HA.
  { intros b Hb. rewrite ent_mult. unfold selix. mdim. destruct (f i) as [a|] eqn:Ei.
    - rewrite (sum_ext _ _ (fun x => (if Nat.eqb a x then 1 else 0) * ent Q x b)).
      2:{ intros x Hx. rewrite ent_mk by auto. rewrite Ei. reflexivity. }
      rewrite sum_one. destruct (Nat.ltb_spec a m); [reflexivity|]. symmetry. apply ent_zero. lia.
    - apply sum_zero. intros x Hx. rewrite ent_mk by auto. rewrite Ei. ring. }
  rewrite (sum_ext _ _ (fun b => (match f j with Some x => if Nat.eqb x b then 1 else 0 | None => 0 end) * match f i with Some a => ent Q a b | None => 0 end)).
  2:{ intros b Hb. rewrite HA by auto. rewrite ent_T. unfold selix. rewrite ent_mk by auto. ring. }
  destruct (f j) as [b|].
  - rewrite sum_one. destruct (f i) as [a|]; [|destruct (_ <? _)%nat; reflexivity].
    destruct (Nat.ltb_spec b m); [reflexivity|]. apply ent_zero. lia.
  - rewrite sum_zero by (intros; ring). destruct (f i); reflexivity.
Qed.
Lemma psd_reix n f Q : psd Q -> psd (reix n f Q).
Proof. intros H. pose proof (psd_sq _ H). rewrite (reix_eq n f Q (nr Q)) by congruence. apply psd_conj; [reflexivity|auto]. Qed.

(** ** block-diagonal matrices *)
Definition bdiag (n : nat) (f : nat -> M3) : mat := blk n (fun i j => if Nat.eqb i j then f i else mzero).
Definition vblk (x : mat) (b : nat) : mat := ofV3 (getV3 x (3 * b) 0).
Lemma quad3 A u : quad (ofM3 A) (ofV3 u) = vdot u (A *v u).
Proof.
  unfold quad. rewrite !ent_mult. mdim. cbn [sum]. rewrite !ent_mult. mdim. cbn [sum]. rewrite !ent_T, !ent_ofV3, !ent_ofM3 by lia.
  unfold vdot. destruct A, u; cbn. ring.
Qed.
Lemma vdot_sum x (g : nat -> R) b : vdot (getV3 x (3 * b) 0) (mkV (g (3 * b)%nat) (g (3 * b + 1)%nat) (g (3 * b + 2)%nat))
  = ent x (3 * b) 0 * g (3 * b)%nat + ent x (3 * b + 1) 0 * g (3 * b + 1)%nat + ent x (3 * b + 2) 0 * g (3 * b + 2)%nat.
Proof. unfold vdot, getV3, vmk. cbn [v0 v1 v2]. rewrite Nat.add_0_r. reflexivity. Qed.
Lemma ent_bdiag n f b c i j : (b < n)%nat -> (c < n)%nat -> (i < 3)%nat -> (j < 3)%nat ->
  ent (bdiag n f) (3 * b + i) (3 * c + j) = if Nat.eqb b c then mget (f b) i j else 0.
Proof.
  intros Hb Hc Hi Hj. unfold bdiag, blk. rewrite ent_mk by lia.
  destruct (divmod3 b i Hi) as [-> ->], (divmod3 c j Hj) as [-> ->]. destruct (Nat.eqb b c); auto.
  destruct i as [|[|[|]]], j as [|[|[|]]]; try lia; reflexivity.
Qed.
Lemma quad_bdiag n f x : nr x = (3 * n)%nat -> nc x = 1%nat ->
  quad (bdiag n f) x = sum n (fun b => vdot (getV3 x (3 * b) 0) (f b *v getV3 x (3 * b) 0)).
Proof.
  intros H1 H2. rewrite quad_sum by auto. change (nc (bdiag n f)) with (3 * n)%nat. change (nr (bdiag n f)) with (3 * n)%nat.
  rewrite sum_3. apply sum_ext. intros b Hb.
  assert (forall j, (j < 3)%nat -> sum (3 * n) (fun i => ent x i 0 * ent (bdiag n f) i (3 * b + j) * ent x (3 * b + j) 0)
     = (ent x (3 * b) 0 * mget (f b) 0 j + ent x (3 * b + 1) 0 * mget (f b) 1 j + ent x (3 * b + 2) 0 * mget (f b) 2 j) * ent x (3 * b + j) 0) as HS.
  { intros j Hj. rewrite sum_3. rewrite (sum_delta' _ b); auto.
    - pose proof (ent_bdiag n f b b 0 j Hb Hb ltac:(lia) Hj) as E0. rewrite Nat.add_0_r in E0. rewrite E0.
      rewrite !ent_bdiag by (auto; lia). rewrite Nat.eqb_refl. ring.
    - intros c Hc Hne. pose proof (ent_bdiag n f c b 0 j Hc Hb ltac:(lia) Hj) as E0. rewrite Nat.add_0_r in E0. rewrite E0.
      rewrite !ent_bdiag by (auto; lia). destruct (Nat.eqb_spec c b); [lia|ring]. }
  pose proof (HS 0%nat ltac:(lia)) as H0. rewrite Nat.add_0_r in H0. rewrite H0. rewrite !HS by lia.
  unfold vdot, getV3, vmk. cbn [v0 v1 v2]. rewrite !Nat.add_0_r. destruct (f b); cbn. ring.
Qed.
Lemma sym_bdiag n f : (forall b, (b < n)%nat -> mtr (f b) = f b) -> sym (bdiag n f).
Proof.
  intros H. split; [reflexivity|]. intros i j. unfold bdiag, blk. rewrite !ent_mk_if.
  unfold inr. rewrite (andb_comm (i <? 3 * n)%nat). destruct (Nat.ltb_spec j (3 * n)), (Nat.ltb_spec i (3 * n)); cbn [andb]; auto.
  rewrite (Nat.eqb_sym (j / 3)). destruct (Nat.eqb_spec (i / 3) (j / 3)) as [->|].
  - assert (j / 3 < n)%nat as Hb by (apply Nat.div_lt_upper_bound; lia). rewrite <- (H _ Hb) at 1.
    pose proof (Nat.mod_upper_bound i 3). pose proof (Nat.mod_upper_bound j 3).
    destruct (f (j / 3)%nat), (i mod 3)%nat as [|[|[|]]], (j mod 3)%nat as [|[|[|]]]; try lia; reflexivity.
  - destruct (i mod 3)%nat as [|[|[|]]], (j mod 3)%nat as [|[|[|]]]; reflexivity.
Qed.
Lemma pd_ofM3 A : pd (ofM3 A) <-> mtr A = A /\ forall u, u <> vzero -> 0 < vdot u (A *v u).
Proof.
  split.
  - intros [[_ H] HQ]. split.
    + apply M3_ext. intros i j Hi Hj. specialize (H i j). rewrite !ent_ofM3 in H by auto.
      destruct A, i as [|[|[|]]], j as [|[|[|]]]; try lia; cbn in *; auto.
    + intros u Hu. rewrite <- quad3. apply HQ; try reflexivity. intros E. apply Hu.
      apply V3_ext. intros i Hi. assert (ent (ofV3 u) i 0 = ent (mO 3 1) i 0) as E1 by (rewrite E; reflexivity).
      rewrite ent_O, ent_ofV3 in E1 by auto. rewrite E1. destruct i as [|[|[|]]]; try lia; reflexivity.
  - intros [H HQ]. split.
    + split; [reflexivity|]. intros i j.
      destruct (le_lt_dec 3 i); [rewrite !ent_zero by (mdim; lia); reflexivity|].
      destruct (le_lt_dec 3 j); [rewrite !ent_zero by (mdim; lia); reflexivity|].
      rewrite !ent_ofM3 by auto. rewrite <- H at 1. destruct A, i as [|[|[|]]], j as [|[|[|]]]; try lia; reflexivity.
    + intros x X1 X2 Hx. change (nr (ofM3 A)) with 3%nat in *.
      assert (x = ofV3 (getV3 x 0 0)) as Ex.
      { apply mat_ext; [auto|auto|]. intros i j Hi Hj. rewrite X1 in Hi. rewrite X2 in Hj. replace j with 0%nat by lia.
        rewrite ent_ofV3, vget_getV3 by auto. reflexivity. }
      rewrite Ex, quad3. apply HQ. intros E. apply Hx. rewrite Ex, E.
      apply mat_ext; try reflexivity. intros i j Hi Hj. change (i < 3)%nat in Hi. change (j < 1)%nat in Hj.
      replace j with 0%nat by lia. rewrite ent_ofV3, ent_O by auto. destruct i as [|[|[|]]]; try lia; reflexivity.
Qed.
Lemma sum_nonneg_zero n g : (forall b, (b < n)%nat -> 0 <= g b) -> sum n g = 0 -> forall b, (b < n)%nat -> g b = 0.
Proof.
  induction n as [|n IH]; intros Hg E b Hb; [lia|]. cbn [sum] in E.
  assert (0 <= sum n g) by (apply sum_nonneg; intros; apply Hg; lia). pose proof (Hg n ltac:(lia)).
  destruct (Nat.eq_dec b n) as [->|]; [lra|]. apply IH; [intros; apply Hg; lia|lra|lia].
Qed.
Lemma pd_bdiag n f : (forall b, (b < n)%nat -> pd (ofM3 (f b))) -> pd (bdiag n f).
Proof.
  intros H. split.
  - apply sym_bdiag. intros b Hb. apply (pd_ofM3 (f b)), H; auto.
  - intros x X1 X2 Hx. change (nr (bdiag n f)) with (3 * n)%nat in *. rewrite quad_bdiag by auto.
    assert (forall b, (b < n)%nat -> 0 <= vdot (getV3 x (3 * b) 0) (f b *v getV3 x (3 * b) 0)) as Hn.
    { intros b Hb. rewrite <- quad3. apply (psd_quad _ (pd_psd _ (H b Hb))); reflexivity. }
    assert (0 <= sum n (fun b => vdot (getV3 x (3 * b) 0) (f b *v getV3 x (3 * b) 0))) as [L|E] by (apply sum_nonneg; auto); auto.
    exfalso. apply Hx. apply mat_ext; [auto|auto|]. intros i j Hi Hj. rewrite X1 in Hi. rewrite X2 in Hj. replace j with 0%nat by lia. rewrite ent_O.
    assert (forall b, (b < n)%nat -> vdot (getV3 x (3 * b) 0) (f b *v getV3 x (3 * b) 0) = 0) as Hz.
    { intros b Hb. exact (sum_nonneg_zero n _ Hn (eq_sym E) b Hb). }
    pose proof (Nat.div_mod i 3 ltac:(lia)) as Ei. pose proof (Nat.mod_upper_bound i 3 ltac:(lia)) as Hm.
    assert (i / 3 < n)%nat as Hb by (apply Nat.div_lt_upper_bound; lia).
    specialize (Hz _ Hb). assert (getV3 x (3 * (i / 3)) 0 = vzero) as Ev.
    { destruct (proj1 (pd_ofM3 _) (H _ Hb)) as [_ HP].
      destruct (Req_dec (vdot (getV3 x (3 * (i / 3)) 0) (getV3 x (3 * (i / 3)) 0)) 0) as [E0|E0].
      - revert E0. generalize (getV3 x (3 * (i / 3)) 0). intros [a b c] E0. unfold vdot in E0. cbn [v0 v1 v2] in E0. unfold vzero. f_equal; nra.
      - exfalso. specialize (HP (getV3 x (3 * (i / 3)) 0)). rewrite Hz in HP. apply (Rlt_irrefl 0), HP. intros Ev. apply E0. rewrite Ev. unfold vdot; cbn; ring. }
    rewrite Ei at 1. rewrite <- (vget_getV3 x (3 * (i / 3)) 0 (i mod 3)) by auto. rewrite Ev. destruct (i mod 3)%nat as [|[|[|]]]; try lia; reflexivity.
Qed.
Lemma psd_bdiag n f : (forall b, (b < n)%nat -> psd (ofM3 (f b))) -> psd (bdiag n f).
Proof.
  intros H. split.
  - apply sym_bdiag. intros b Hb. destruct (H b Hb) as [[_ Hs] _]. apply M3_ext. intros i j Hi Hj. specialize (Hs i j). rewrite !ent_ofM3 in Hs by auto.
    destruct (f b), i as [|[|[|]]], j as [|[|[|]]]; try lia; cbn in *; auto.
  - intros x X1 X2. change (nr (bdiag n f)) with (3 * n)%nat in *. rewrite quad_bdiag by auto.
    apply sum_nonneg. intros b Hb. rewrite <- quad3. apply (psd_quad _ (H b Hb)); reflexivity.
Qed.
