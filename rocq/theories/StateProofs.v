(** Proofs about RobotState: inverse, resizing, augmentation, deletion. *)
From Coq Require Import Reals ZArith List Bool Lia Lra Permutation.
From Verif Require Import Res Vec3 Mat LieGroup MatInv Psd Spec LieSO3 LieSEK SEK3 RobotState.
Import ListNotations.
Local Open Scope R_scope.

Ltac okstep :=
  first
  [ rewrite cgetM3_ok by (mdim; lia)
  | rewrite cgetV3_ok by (mdim; lia)
  | rewrite cput_ok by (mdim; lia)
  | rewrite cblock_ok by (mdim; lia)
  | rewrite cmul_ok by mdim
  | rewrite cadd_ok by mdim
  | rewrite csub_ok by mdim ]; cbn [bind].

Ltac srs := cbn [bind stype sX sTheta sP scmap st stprop sQc sbav sen sslip set_X set_theta set_P set_Qc
  set_cmap set_time set_propagate_time set_body_angular_velocity set_enable_imu_bias_update set_slip_flag].

Lemma check_true b e : b = true -> check b e = Ok tt.
Proof. intros ->; reflexivity. Qed.

(** ** get_Xinv *)
Lemma Xinv_loop K X A : nc X = (3 + K)%nat -> (3 <= nr X)%nat -> forall n, (n <= K)%nat ->
  foldM (fun Xi i => let* x := cgetV3 X 0 i in cput Xi 0 i (ofV3 (mneg A *v x)))
    (sek K A (fun _ => vzero)) (seq 3 n)
  = Ok (sek K A (fun i => if (i <? n)%nat then vneg (A *v col X i) else vzero)).
Proof.
  intros Hc Hr. induction n as [|n IH]; intros Hn; [reflexivity|].
  rewrite seq_S, foldM_app, IH by lia. cbn [bind foldM].
  rewrite cgetV3_ok by lia. cbn [bind]. rewrite cput_ok by (mdim; lia). cbn [bind].
  rewrite put_col_sek by lia. f_equal. apply aff_ext. intros k Hk.
  destruct (Nat.eqb_spec k n) as [->|Hne].
  - destruct (Nat.ltb_spec n (S n)); [|lia]. unfold col. generalize (getV3 X 0 (3 + n)). ring3.
  - destruct (Nat.ltb_spec k n), (Nat.ltb_spec k (S n)); try lia; reflexivity.
Qed.
Lemma get_Xinv_ok K s : nc (sX s) = (3 + K)%nat -> (3 <= nr (sX s))%nat ->
  get_Xinv s = Ok (sekinv K (sX s)).
Proof.
  intros Hc Hr. unfold get_Xinv, dimX. rewrite Hc. okstep. okstep.
  fold (rot (sX s)). rewrite put_rot_eye. replace (3 + K - 3)%nat with K by lia.
  rewrite (Xinv_loop K) by auto. unfold sekinv. f_equal. apply aff_ext. intros k Hk.
  destruct (Nat.ltb_spec k K); [reflexivity|lia].
Qed.

(** ** RemoveRowAndColumn *)
Definition skip (i m r : nat) : nat := if (r <? i)%nat then r else (r + m)%nat.
Definition drop_rc (i m : nat) (M : mat) : mat :=
  mk (nr M - m) (nc M - m) (fun r c => ent M (skip i m r) (skip i m c)).
Lemma nr_drop i m M : nr (drop_rc i m M) = (nr M - m)%nat. Proof. reflexivity. Qed.
Lemma nc_drop i m M : nc (drop_rc i m M) = (nc M - m)%nat. Proof. reflexivity. Qed.
Global Hint Rewrite nr_drop nc_drop : mdims.
Global Arguments drop_rc : simpl never.
Lemma nr_resize A B : nr (resize_like A B) = nr B. Proof. reflexivity. Qed.
Lemma nc_resize A B : nc (resize_like A B) = nc B. Proof. reflexivity. Qed.
Lemma nr_cresize A n m : nr (cresize A n m) = n. Proof. reflexivity. Qed.
Lemma nc_cresize A n m : nc (cresize A n m) = m. Proof. reflexivity. Qed.
Global Hint Rewrite nr_resize nc_resize nr_cresize nc_cresize : mdims.
Global Arguments resize_like : simpl never.
Global Arguments cresize : simpl never.
Lemma ent_resize_in A B i j : (i < nr B)%nat -> (j < nc B)%nat -> (i < nr A)%nat -> (j < nc A)%nat ->
  ent (resize_like A B) i j = ent A i j.
Proof.
  intros. unfold resize_like. rewrite ent_mk by auto.
  destruct (Nat.ltb_spec i (nr A)), (Nat.ltb_spec j (nc A)); try lia. reflexivity.
Qed.
Lemma ent_resize_out A B i j : (i < nr B)%nat -> (j < nc B)%nat -> (nr A <= i)%nat \/ (nc A <= j)%nat ->
  ent (resize_like A B) i j = ent B i j.
Proof.
  intros. unfold resize_like. rewrite ent_mk by auto.
  destruct (Nat.ltb_spec i (nr A)), (Nat.ltb_spec j (nc A)); try lia; reflexivity.
Qed.

Lemma Remove_ok M i m n : nr M = n -> nc M = n -> (i + m <= n)%nat ->
  RemoveRowAndColumn M i m = Ok (drop_rc i m M).
Proof.
  intros Hr Hc Him. unfold RemoveRowAndColumn. rewrite Hc, Hr.
  rewrite check_true by (apply Nat.leb_le; lia). cbn [bind].
  rewrite check_true by (apply Nat.leb_le; lia). cbn [bind].
  rewrite cblock_ok by lia. cbn [bind]. rewrite cput_ok by (mdim; lia). cbn [bind].
  rewrite cblock_ok by (mdim; lia). cbn [bind].
  rewrite check_true by (apply Nat.eqb_eq; mdim). cbn [bind].
  rewrite cput_ok by (mdim; lia). cbn [bind]. f_equal.
  apply mat_ext; [mdim|mdim|]. intros r c Hr' Hc'. mdim.
  unfold cresize. rewrite ent_resize_in by (mdim; lia). unfold drop_rc. rewrite ent_mk by lia.
  unfold skip. destruct (Nat.ltb_spec c i) as [Lc|Lc].
  - rewrite ent_put_out by (mdim; lia). destruct (Nat.ltb_spec r i) as [Lr|Lr].
    + rewrite ent_put_out by (mdim; lia). reflexivity.
    + rewrite ent_put_in by (mdim; lia). rewrite ent_sub by lia. f_equal; lia.
  - rewrite ent_put_in by (mdim; lia). rewrite ent_sub by (mdim; lia). mdim.
    destruct (Nat.ltb_spec r i) as [Lr|Lr].
    + rewrite ent_put_out by (mdim; lia). f_equal; lia.
    + rewrite ent_put_in by (mdim; lia). rewrite ent_sub by (mdim; lia). f_equal; lia.
Qed.
Lemma skip3 i r a : (a < 3)%nat -> skip (3 * i) 3 (3 * r + a) = (3 * skip i 1 r + a)%nat.
Proof.
  intros Ha. unfold skip. destruct (Nat.ltb_spec (3 * r + a) (3 * i)), (Nat.ltb_spec r i); lia.
Qed.
Lemma getM3_drop i M r c : (3 * r + 3 <= nr M - 3)%nat -> (3 * c + 3 <= nc M - 3)%nat ->
  getM3 (drop_rc (3 * i) 3 M) (3 * r) (3 * c) = getM3 M (3 * skip i 1 r) (3 * skip i 1 c).
Proof.
  intros Hr Hc. apply M3_ext; intros a b Ha Hb. rewrite !mget_getM3 by auto. unfold drop_rc.
  rewrite ent_mk by lia. rewrite !skip3 by auto. reflexivity.
Qed.

(** ** lists *)
Lemma upd_length {A} (l : list A) i x : length (upd l i x) = length l.
Proof. revert i; induction l; intros [|i]; simpl; auto. Qed.
Lemma nth_error_upd {A} (l : list A) i x j :
  nth_error (upd l i x) j = if Nat.eqb i j then (match nth_error l j with Some _ => Some x | None => None end) else nth_error l j.
Proof.
  revert i j. induction l as [|a l IH]; intros [|i] [|j]; simpl; auto.
  - destruct (Nat.eqb i j); reflexivity.
Qed.

(** ** del_aug_state: the id loop *)
Definition dec_range (h : heap) (ids : list ptr) (k : nat) : heap :=
  (* ids at positions >= k lose one *)
  fold_left (fun h p => upd h p (nth p h 0%Z - 1)%Z) (skipn k ids) h.

Definition ids_ok (h : heap) (ids : list ptr) : Prop :=
  NoDup ids /\ forall k p, nth_error ids k = Some p -> nth_error h p = Some (Z.of_nat (5 + k)).

Definition cm (ids : list ptr) : list (option ptr) := repeat None 5 ++ map Some ids.

Fixpoint remove_nth {A} (k : nat) (l : list A) : list A :=
  match l, k with
  | [], _ => []
  | _ :: l', O => l'
  | a :: l', S k' => a :: remove_nth k' l'
  end.
Lemma nth_error_remove_nth {A} (l : list A) k j :
  nth_error (remove_nth k l) j = nth_error l (skip k 1 j).
Proof.
  revert k j. induction l as [|a l IH]; intros k j.
  - cbn [remove_nth]. destruct k; destruct j, (skip _ 1 _); reflexivity.
  - destruct k as [|k]; cbn [remove_nth].
    + unfold skip. change (j <? 0)%nat with false. cbv iota. rewrite Nat.add_1_r. reflexivity.
    + destruct j as [|j]; [reflexivity|]. cbn [nth_error]. rewrite IH. unfold skip.
      destruct (Nat.ltb_spec j k), (Nat.ltb_spec (S j) (S k)); try lia; reflexivity.
Qed.
Lemma remove_nth_length {A} (l : list A) k : (k < length l)%nat -> length (remove_nth k l) = (length l - 1)%nat.
Proof. revert k; induction l as [|a l IH]; intros [|k] H; simpl in *; try lia. rewrite IH by lia. lia. Qed.
Lemma remove_nth_In {A} (l : list A) k x : In x (remove_nth k l) -> In x l.
Proof. revert k; induction l as [|a l IH]; intros [|k]; simpl; auto. intros [->|H]; auto. right; eauto. Qed.
Lemma remove_nth_NoDup {A} (l : list A) k : NoDup l -> NoDup (remove_nth k l).
Proof.
  revert k; induction l as [|a l IH]; intros [|k] H; simpl; auto; inversion H; subst; auto.
  constructor; auto. intros Hi. apply remove_nth_In in Hi. auto.
Qed.

Lemma nth_error_cm ids i : nth_error (cm ids) i =
  if (i <? 5)%nat then Some None else option_map Some (nth_error ids (i - 5)).
Proof.
  unfold cm. destruct (Nat.ltb_spec i 5) as [L|L].
  - do 5 (destruct i as [|i]; [reflexivity|]). lia.
  - rewrite nth_error_app2 by (rewrite repeat_length; lia). rewrite repeat_length.
    apply nth_error_map.
Qed.
Lemma cm_length ids : length (cm ids) = (5 + length ids)%nat.
Proof. unfold cm. rewrite app_length, repeat_length, map_length. reflexivity. Qed.

Lemma list_ext {A} (l1 l2 : list A) : (forall i, nth_error l1 i = nth_error l2 i) -> l1 = l2.
Proof.
  revert l2; induction l1 as [|a l1 IH]; intros [|b l2] H; auto.
  - specialize (H O); discriminate.
  - specialize (H O); discriminate.
  - f_equal; [specialize (H O); simpl in H; congruence|]. apply IH. intros i. apply (H (S i)).
Qed.

Definition del_body := (fun (hm : heap * list (option ptr)) i =>
      let '(h, m) := hm in
      let* q := of_opt (nth_error m (i + 1)) BadRead in
      let* _ := check (i <? length m)%nat BadRead in
      let m := upd m i q in
      let* z := heap_get h q in
      let* h := heap_set h q (z - 1) in
      Ok (h, m)).

(** after n iterations starting from column 5+k *)
Lemma del_loop h ids k n : ids_ok h ids -> (k + n < length ids)%nat ->
  exists h' m', foldM del_body (h, cm ids) (seq (5 + k) n) = Ok (h', m')
  /\ length h' = length h /\ length m' = (5 + length ids)%nat
  /\ (forall i, nth_error m' i = if (5 + k <=? i)%nat && (i <? 5 + k + n)%nat then nth_error (cm ids) (i + 1) else nth_error (cm ids) i)
  /\ (forall p, ~ In p ids -> nth_error h' p = nth_error h p)
  /\ (forall j p, nth_error ids j = Some p -> nth_error h' p =
        Some (Z.of_nat (5 + (if (k <? j)%nat && (j <=? k + n)%nat then j - 1 else j)))).
Proof.
  intros [ND HI]. induction n as [|n IH]; intros Hn.
  - exists h, (cm ids). split; [reflexivity|]. split; [reflexivity|]. split; [apply cm_length|].
    split; [|split].
    + intros i. destruct (Nat.leb_spec (5 + k) i), (Nat.ltb_spec i (5 + k + 0)); try lia; reflexivity.
    + auto.
    + intros j p Hj. rewrite (HI j p Hj). destruct (Nat.ltb_spec k j), (Nat.leb_spec j (k + 0)); try lia; reflexivity.
  - destruct IH as (h' & m' & E & Lh & Lm & Hm & Hout & Hin); [lia|].
    assert (exists p, nth_error ids (k + n + 1) = Some p) as [p Hp].
    { destruct (nth_error ids (k + n + 1)) eqn:Ee; eauto. apply nth_error_None in Ee. lia. }
    assert (nth_error m' (5 + k + n + 1) = Some (Some p)) as Hmp.
    { rewrite Hm. destruct (Nat.leb_spec (5 + k) (5 + k + n + 1)), (Nat.ltb_spec (5 + k + n + 1) (5 + k + n)); try lia.
      cbn [andb]. rewrite nth_error_cm. destruct (Nat.ltb_spec (5 + k + n + 1) 5); [lia|].
      replace (5 + k + n + 1 - 5)%nat with (k + n + 1)%nat by lia. rewrite Hp. reflexivity. }
    rewrite seq_S, foldM_app, E. cbn [bind foldM].
    unfold del_body at 1. rewrite Hmp. cbn [of_opt bind].
    rewrite check_true by (apply Nat.ltb_lt; lia). cbn [bind].
    cbn [heap_get]. rewrite (Hin _ _ Hp). cbn [of_opt bind heap_set].
    assert (p < length h')%nat as Lp.
    { apply nth_error_Some. rewrite (Hin _ _ Hp). discriminate. }
    rewrite check_true by (apply Nat.ltb_lt; lia). cbn [bind].
    eexists _, _. split; [reflexivity|]. rewrite !upd_length. split; [auto|]. split; [auto|].
    split; [|split].
    + intros i. rewrite nth_error_upd. destruct (Nat.eqb_spec (5 + k + n) i) as [<-|Hne].
      * rewrite Hm. destruct (Nat.leb_spec (5 + k) (5 + k + n)), (Nat.ltb_spec (5 + k + n) (5 + k + n)),
          (Nat.ltb_spec (5 + k + n) (5 + k + S n)); try lia. cbn [andb].
        rewrite !nth_error_cm. destruct (Nat.ltb_spec (5 + k + n) 5), (Nat.ltb_spec (5 + k + n + 1) 5); try lia.
        replace (5 + k + n + 1 - 5)%nat with (k + n + 1)%nat by lia. rewrite Hp.
        destruct (nth_error ids (5 + k + n - 5)) eqn:Ee; [reflexivity|].
        apply nth_error_None in Ee. lia.
      * rewrite Hm. destruct (Nat.leb_spec (5 + k) i), (Nat.ltb_spec i (5 + k + n)),
          (Nat.ltb_spec i (5 + k + S n)); try lia; reflexivity.
    + intros q Hq. rewrite nth_error_upd. destruct (Nat.eqb_spec p q) as [->|Hne]; auto.
      exfalso. apply Hq. eapply nth_error_In; eauto.
    + intros j q Hq. rewrite nth_error_upd. destruct (Nat.eqb_spec p q) as [->|Hne].
      * rewrite (Hin _ _ Hp). assert (j = k + n + 1)%nat as ->.
        { apply (proj1 (NoDup_nth_error ids) ND); [apply nth_error_Some; congruence|congruence]. }
        f_equal. destruct (Nat.ltb_spec k (k + n + 1)), (Nat.leb_spec (k + n + 1) (k + n)), (Nat.leb_spec (k + n + 1) (k + S n)); try lia.
        cbn [andb]. lia.
      * rewrite (Hin _ _ Hq). assert (j <> k + n + 1)%nat by congruence.
        do 2 f_equal. destruct (Nat.ltb_spec k j), (Nat.leb_spec j (k + n)), (Nat.leb_spec j (k + S n)); try lia; reflexivity.
Qed.

Lemma nth_error_removelast {A} (l : list A) i : nth_error (removelast l) i =
  if (i <? length l - 1)%nat then nth_error l i else None.
Proof.
  revert i. induction l as [|a l IH]; intros i; [destruct i; reflexivity|].
  destruct l as [|b l]; [destruct i; reflexivity|].
  change (removelast (a :: b :: l)) with (a :: removelast (b :: l)). destruct i as [|i]; [reflexivity|].
  cbn [nth_error]. rewrite IH. simpl length.
  destruct (Nat.ltb_spec i (S (length l) - 1)), (Nat.ltb_spec (S i) (S (S (length l)) - 1)); try lia; reflexivity.
Qed.

(** ** The consistency invariant *)
Record st_inv (h : heap) (s : rstate) (ids : list ptr) : Prop := {
  si_nrX : nr (sX s) = (5 + length ids)%nat;
  si_ncX : nc (sX s) = (5 + length ids)%nat;
  si_ncT : nc (sTheta s) = 1%nat;
  si_nrP : nr (sP s) = (9 + 3 * length ids + nr (sTheta s))%nat;
  si_ncP : nc (sP s) = (9 + 3 * length ids + nr (sTheta s))%nat;
  si_nrQ : nr (sQc s) = (9 + 3 * length ids + nr (sTheta s))%nat;
  si_ncQ : nc (sQc s) = (9 + 3 * length ids + nr (sTheta s))%nat;
  si_cm : scmap s = cm ids;
  si_ids : ids_ok h ids }.

Lemma st_inv_default h : st_inv h RS_default [].
Proof.
  split; try reflexivity. split; [constructor|]. intros [|k] p H; discriminate.
Qed.

Definition del_spec (s : rstate) (k : nat) : rstate :=
  mkRS (stype s) (drop_rc (5 + k) 1 (sX s)) (sTheta s) (drop_rc (3 * (3 + k)) 3 (sP s))
    (removelast (scmap s)) (st s) (stprop s) (drop_rc (3 * (3 + k)) 3 (sQc s)) (sbav s) (sen s) (sslip s).

Lemma cov_index_ok k : cov_index (5 + k) = Ok (3 * (3 + k))%nat.
Proof. unfold cov_index. rewrite idx_ok by lia. f_equal. lia. Qed.

Lemma del_aug_state_ok h s ids k : st_inv h s ids -> (k < length ids)%nat ->
  exists h' s', del_aug_state h s (5 + k) = Ok (h', s')
  /\ st_inv h' s' (remove_nth k ids)
  /\ length h' = length h
  /\ (forall p, ~ In p ids -> nth_error h' p = nth_error h p)
  /\ s' = set_cmap (del_spec s k) (cm (remove_nth k ids)).
Proof.
  intros [H1 H2 HT H3 H4 H5 H6 Hcm Hid] Hk. unfold del_aug_state, dimX. rewrite H2.
  destruct (del_loop h ids k (length ids - 1 - k) Hid) as (h' & m' & E & Lh & Lm & Hm & Hout & Hin); [lia|].
  rewrite Hcm. replace (5 + length ids - 1 - (5 + k))%nat with (length ids - 1 - k)%nat by lia.
  match goal with |- context [foldM ?f ?a ?l] => change (foldM f a l) with (foldM del_body a l) end.
  rewrite E. cbn [bind]. rewrite check_true by (apply Nat.leb_le; lia). cbn [bind].
  assert (removelast m' = cm (remove_nth k ids)) as Hrl.
  { apply list_ext. intros i. rewrite nth_error_removelast, Lm, Hm, !nth_error_cm, nth_error_remove_nth.
    unfold skip.
    destruct (Nat.ltb_spec i (5 + length ids - 1)).
    - destruct (Nat.leb_spec (5 + k) i), (Nat.ltb_spec i (5 + k + (length ids - 1 - k))); try lia; cbn [andb].
      + destruct (Nat.ltb_spec (i + 1) 5), (Nat.ltb_spec i 5), (Nat.ltb_spec (i - 5) k); try lia.
        do 2 f_equal. lia.
      + destruct (Nat.ltb_spec i 5), (Nat.ltb_spec (i - 5) k); try lia; try reflexivity.
    - destruct (Nat.ltb_spec i 5), (Nat.ltb_spec (i - 5) k); try lia.
      symmetry. destruct (nth_error ids (i - 5 + 1)) eqn:Ee; [|reflexivity].
      assert (i - 5 + 1 < length ids)%nat by (apply nth_error_Some; congruence). lia. }
  rewrite Hrl. srs.
  rewrite (Remove_ok _ _ _ (5 + length ids)) by lia. cbn [bind].
  unfold del_aug_cov. rewrite cov_index_ok. srs.
  rewrite (Remove_ok _ _ _ (9 + 3 * length ids + nr (sTheta s))) by lia. cbn [bind].
  unfold del_aug_noise_cov. rewrite cov_index_ok. srs.
  rewrite (Remove_ok _ _ _ (9 + 3 * length ids + nr (sTheta s))) by lia. cbn [bind].
  eexists _, _. split; [reflexivity|]. split; [|split; [auto|split; [auto|reflexivity]]].
  split; cbn [sX sP sQc sTheta scmap set_X set_P set_Qc set_cmap]; mdim; auto;
    rewrite ?remove_nth_length by lia; try lia.
  split; [apply remove_nth_NoDup, Hid|]. intros j p Hj. rewrite nth_error_remove_nth in Hj.
  rewrite (Hin _ _ Hj). do 2 f_equal. unfold skip in *.
  destruct (Nat.ltb_spec j k).
  - destruct (Nat.ltb_spec k j); [lia|]. cbn [andb]. reflexivity.
  - assert (j + 1 < length ids)%nat by (apply nth_error_Some; congruence).
    destruct (Nat.ltb_spec k (j + 1)), (Nat.leb_spec (j + 1) (k + (length ids - 1 - k))); try lia. cbn [andb]. lia.
Qed.

(** ** add_aug_state *)
Definition addX (X : mat) (n : nat) (aug : V3) : mat := put (resize_like X (meye (n + 1))) 0 n (ofV3 aug).

Lemma ids_ok_app h ids : ids_ok h ids -> ids_ok (h ++ [Z.of_nat (5 + length ids)]) (ids ++ [length h]).
Proof.
  intros [ND HI]. split.
  - apply (Permutation_NoDup (Permutation_cons_append ids (length h))).
    constructor; auto. intros Hin. apply In_nth_error in Hin. destruct Hin as [k Hk].
    specialize (HI _ _ Hk). assert (length h < length h)%nat; [|lia]. apply nth_error_Some. congruence.
  - intros k p Hk. destruct (le_lt_dec (length ids) k) as [Lk|Lk].
    + rewrite nth_error_app2 in Hk by lia. destruct (k - length ids)%nat as [|[|]] eqn:Ee; cbn in Hk; try discriminate.
      injection Hk as <-. rewrite nth_error_app2, Nat.sub_diag by lia. cbn. do 2 f_equal. lia.
    + rewrite nth_error_app1 in Hk by lia. specialize (HI _ _ Hk).
      rewrite nth_error_app1; auto. apply nth_error_Some; congruence.
Qed.
Lemma add_aug_state_ok h s ids aug Pa N : st_inv h s ids ->
  nr Pa = (12 + 3 * length ids + nr (sTheta s))%nat -> nc Pa = (12 + 3 * length ids + nr (sTheta s))%nat ->
  exists Qa s', add_aug_state s aug Pa N (Some (length h)) = Ok (s', (5 + length ids)%nat)
  /\ st_inv (h ++ [Z.of_nat (dimX s)]) s' (ids ++ [length h])
  /\ nr Qa = (12 + 3 * length ids + nr (sTheta s))%nat
  /\ nc Qa = (12 + 3 * length ids + nr (sTheta s))%nat
  /\ (forall i j, (i < 12 + 3 * length ids + nr (sTheta s))%nat -> (j < 12 + 3 * length ids + nr (sTheta s))%nat ->
        ent Qa i j =
        if inwin (9 + 3 * length ids) 3 i && inwin (9 + 3 * length ids) 3 j
        then mget N (i - (9 + 3 * length ids)) (j - (9 + 3 * length ids))
        else
          let src i := if (i <? 6 + length ids)%nat then Some i
                       else if (12 + 3 * length ids <=? i)%nat then Some (i - 3)%nat else None in
          match src i, src j with
          | Some a, Some b => ent (sQc s) a b
          | _, _ => 0
          end)
  /\ s' = set_cmap (set_Qc (set_P (set_X s (addX (sX s) (5 + length ids) aug)) Pa) Qa) (cm (ids ++ [length h])).
Proof.
  intros [H1 H2 HT H3 H4 H5 H6 Hcm Hid] HP1 HP2. unfold add_aug_state, dimX. rewrite H2.
  rewrite cput_ok by (mdim; lia). cbn [bind set_X set_P sX sP sTheta sQc dimQc dimTheta].
  unfold dimQc, dimTheta. cbn [bind set_X set_P sX sP sTheta sQc].
  set (d := nr (sTheta s)) in *. set (n := length ids) in *.
  rewrite H5, H6. mdim.
  rewrite check_true by (apply andb_true_iff; split; apply Nat.leb_le; lia). cbn [bind].
  repeat okstep.
  match goal with |- context [set_Qc ?a ?Q] => exists Q end.
  eexists. split; [f_equal; f_equal; cbn; mdim; lia|].
  split; [|split; [|split; [|split]]]; [| | | |].
  - split; cbn [sX sP sQc sTheta scmap set_X set_P set_Qc set_cmap]; mdim; fold d; rewrite ?app_length; simpl length; fold n; try lia.
    + rewrite Hcm. unfold cm. rewrite map_app, app_assoc. reflexivity.
    + apply ids_ok_app. exact Hid.
  - mdim.
  - mdim.
  - intros i j Hi Hj. cbv zeta.
    rewrite (ent_put _ (9 + 3 * n + d - d)) by (mdim; lia). mdim.
    replace (9 + 3 * n + d - d)%nat with (9 + 3 * n)%nat by lia.
    destruct (inwin (9 + 3 * n) 3 i && inwin (9 + 3 * n) 3 j) eqn:E0.
    { apply andb_true_iff in E0. destruct E0 as [E1 E2]. apply inwin_true in E1, E2.
      rewrite ent_ofM3 by lia. reflexivity. }
    rewrite !ent_put by (mdim; lia). mdim.
    unfold inwin.
    destruct (Nat.ltb_spec i (6 + n)), (Nat.ltb_spec j (6 + n));
    destruct (Nat.leb_spec (12 + 3 * n) i), (Nat.leb_spec (12 + 3 * n) j); try lia;
    repeat (match goal with
     | |- context [(?a <=? ?b)%nat] => destruct (Nat.leb_spec a b); try lia
     | |- context [(?a <? ?b)%nat] => destruct (Nat.ltb_spec a b); try lia
     end; cbn [andb]);
    rewrite ?ent_O, ?ent_sub by lia; try reflexivity; f_equal; lia.
  - unfold set_cmap, set_Qc, set_P, set_X, addX; cbn. f_equal. rewrite Hcm. unfold cm.
    rewrite map_app. reflexivity.
Qed.
