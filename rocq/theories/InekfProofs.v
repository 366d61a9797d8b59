(** Proofs about the invariant measurement updates. *)
From Coq Require Import Reals ZArith List Bool Lia Lra.
From Verif Require Import Res Vec3 Mat LieGroup MatInv Psd Spec LieSO3 LieSEK RobotState StateProofs Inekf SpecFilter.
Import ListNotations.
Local Open Scope R_scope.

(** ** Closed forms *)
Definition biasm (K : nat) (i : nat) : bool := (3 + 3 * K <=? i)%nat.
Definition yawm (K : nat) (i : nat) : bool := Nat.eqb i (5 + 3 * K).
Definition c4 : R := 1 / 10000.
Definition AdB (K : nat) (X : mat) : mat := put (meye (9 + 3 * K)) 0 0 (Ad K X).
Global Arguments AdB : simpl never.
Lemma nr_AdB K X : nr (AdB K X) = (9 + 3 * K)%nat. Proof. reflexivity. Qed.
Lemma nc_AdB K X : nc (AdB K X) = (9 + 3 * K)%nat. Proof. reflexivity. Qed.
Lemma nr_mask m c P : nr (mask_diag m c P) = nr P. Proof. reflexivity. Qed.
Lemma nc_mask m c P : nc (mask_diag m c P) = nc P. Proof. reflexivity. Qed.
Lemma nr_Ad K X : nr (Ad K X) = (3 + 3 * K)%nat. Proof. reflexivity. Qed.
Lemma nc_Ad K X : nc (Ad K X) = (3 + 3 * K)%nat. Proof. reflexivity. Qed.
Global Hint Rewrite nr_AdB nc_AdB nr_mask nc_mask nr_Ad nc_Ad : mdims.
Global Arguments mask_diag : simpl never.
Global Arguments Ad : simpl never.

Lemma ent_mask m c P i j : (i < nr P)%nat -> (j < nc P)%nat ->
  ent (mask_diag m c P) i j = if m i || m j then (if Nat.eqb i j then c else 0) else ent P i j.
Proof. intros; unfold mask_diag; rewrite ent_mk by auto; reflexivity. Qed.

Lemma idx_sub a b : (b <= a)%nat -> idx (Z.of_nat a - Z.of_nat b) = Ok (a - b)%nat.
Proof. intros H. rewrite idx_ok by lia. f_equal; lia. Qed.

Lemma remove_bias_ok K s P : wf K s -> nr P = (9 + 3 * K)%nat -> nc P = (9 + 3 * K)%nat ->
  remove_bias s P = Ok (if sen s then P else mask_diag (biasm K) c4 P).
Proof.
  intros W H1 H2. destruct W. unfold remove_bias, dimP, dimTheta. destruct (sen s); [reflexivity|].
  rewrite wf_Pc, wf_Tr. rewrite idx_sub by lia. cbn [bind].
  replace (9 + 3 * K - 6)%nat with (3 + 3 * K)%nat by lia.
  rewrite cput_ok by (mdim; lia). cbn [bind].
  rewrite cput_ok by (mdim; lia). cbn [bind].
  rewrite cput_ok by (mdim; lia). f_equal.
  apply mat_ext; mdim. intros i j Hi Hj. mdim. rewrite ent_mask by lia.
  rewrite !ent_put by (mdim; lia). mdim. unfold biasm.
  unfold inwin.
  repeat match goal with |- context [(?a <=? ?b)%nat] => destruct (Nat.leb_spec a b) end;
  repeat match goal with |- context [(?a <? ?b)%nat] => destruct (Nat.ltb_spec a b) end; cbn [andb orb]; try lia;
  rewrite ?ent_O; try reflexivity;
  try (destruct (Nat.eqb_spec i j); [lia|reflexivity]).
  rewrite ent_scl, ent_eye by lia. fold c4.
  destruct (Nat.eqb_spec (i - (3 + 3 * K)) (j - (3 + 3 * K))), (Nat.eqb_spec i j); try lia; ring.
Qed.

Lemma adj_conj_ok K X P : nc X = (3 + K)%nat -> (3 <= nr X)%nat ->
  nr P = (9 + 3 * K)%nat -> nc P = (9 + 3 * K)%nat ->
  adj_conj (9 + 3 * K) 6 X P = Ok (AdB K X *M P *M mT (AdB K X)).
Proof.
  intros H1 H2 H3 H4. unfold adj_conj. rewrite idx_sub by lia. cbn [bind].
  rewrite (Adjoint_SEK3_ok K) by auto. cbn [bind]. fold (Ad K X).
  replace (9 + 3 * K - 6)%nat with (3 + 3 * K)%nat by lia. mdim. rewrite !Nat.eqb_refl. cbn [andb check bind].
  okstep. fold (AdB K X). okstep. okstep. reflexivity.
Qed.

Lemma ent_AdB K X i j : (i < 9 + 3 * K)%nat -> (j < 9 + 3 * K)%nat ->
  ent (AdB K X) i j = if ((i <? 3 + 3 * K) && (j <? 3 + 3 * K))%nat then ent (Ad K X) i j
                      else if Nat.eqb i j then 1 else 0.
Proof.
  intros Hi Hj. unfold AdB. rewrite ent_put by (mdim; lia). mdim. unfold inwin. rewrite !Nat.sub_0_r.
  cbn [Nat.leb andb Nat.add]. change (S (S (S (3 * K)))) with (3 + 3 * K)%nat.
  destruct (Nat.ltb_spec i (3 + 3 * K)), (Nat.ltb_spec j (3 + 3 * K)); cbn [andb]; try reflexivity;
    rewrite ent_eye by lia; reflexivity.
Qed.

Lemma L2R_AdB K X : L2R K X = AdB K X.
Proof.
  apply mat_ext; [reflexivity|reflexivity|]. intros i j Hi Hj. change (nr (L2R K X)) with (9 + 3 * K)%nat in Hi.
  change (nc (L2R K X)) with (9 + 3 * K)%nat in Hj.
  rewrite ent_AdB by auto. unfold L2R. rewrite ent_mk by auto.
  destruct (Nat.ltb_spec i (3 + 3 * K)), (Nat.ltb_spec j (3 + 3 * K)); cbn [andb]; try reflexivity.
  unfold Ad, adj. rewrite ent_mk by auto. reflexivity.
Qed.

(** block-diagonal algebra *)
Lemma AdB_eq_blocks K (A B : mat) : nr A = (3 + 3 * K)%nat -> nc A = (3 + 3 * K)%nat ->
  nr B = (3 + 3 * K)%nat -> nc B = (3 + 3 * K)%nat ->
  put (meye (9 + 3 * K)) 0 0 A *M put (meye (9 + 3 * K)) 0 0 B = put (meye (9 + 3 * K)) 0 0 (A *M B).
Proof.
  intros H1 H2 H3 H4.
  assert (forall A i j, nr A = (3 + 3 * K)%nat -> nc A = (3 + 3 * K)%nat -> (i < 9 + 3 * K)%nat -> (j < 9 + 3 * K)%nat ->
     ent (put (meye (9 + 3 * K)) 0 0 A) i j = if ((i <? 3 + 3 * K) && (j <? 3 + 3 * K))%nat then ent A i j
                      else if Nat.eqb i j then 1 else 0) as E.
  { intros A' i j HA HB Hi Hj. rewrite ent_put by (mdim; lia). rewrite HA, HB. unfold inwin. rewrite !Nat.sub_0_r.
    cbn [Nat.leb andb Nat.add]. change (S (S (S (3 * K)))) with (3 + 3 * K)%nat.
    destruct (Nat.ltb_spec i (3 + 3 * K)), (Nat.ltb_spec j (3 + 3 * K)); cbn [andb]; try reflexivity;
      rewrite ent_eye by lia; reflexivity. }
  apply mat_ext; mdim. intros i j Hi Hj. mdim.
  rewrite ent_mult. mdim. rewrite E by (mdim; lia).
  replace (9 + 3 * K)%nat with (3 + 3 * K + 6)%nat by lia. rewrite sum_app.
  replace (3 + 3 * K + 6)%nat with (9 + 3 * K)%nat by lia.
  destruct (Nat.ltb_spec i (3 + 3 * K)).
  - rewrite (sum_zero 6).
    2:{ intros k Hk. rewrite E by lia. destruct (Nat.ltb_spec i (3 + 3 * K)), (Nat.ltb_spec (3 + 3 * K + k) (3 + 3 * K)); try lia.
        cbn [andb]. destruct (Nat.eqb_spec i (3 + 3 * K + k)); [lia|ring]. }
    destruct (Nat.ltb_spec j (3 + 3 * K)); cbn [andb].
    + rewrite ent_mult, H2, Rplus_0_r. apply sum_ext; intros k Hk. rewrite !E by lia.
      destruct (Nat.ltb_spec i (3 + 3 * K)), (Nat.ltb_spec j (3 + 3 * K)), (Nat.ltb_spec k (3 + 3 * K)); try lia. reflexivity.
    + rewrite sum_zero; [destruct (Nat.eqb_spec i j); [lia|ring]|]. intros k Hk.
      rewrite (E B) by lia. destruct (Nat.ltb_spec j (3 + 3 * K)), (Nat.ltb_spec k (3 + 3 * K)); try lia. cbn [andb].
      destruct (Nat.eqb_spec k j); [lia|ring].
  - cbn [andb]. rewrite (sum_zero (3 + 3 * K)).
    2:{ intros k Hk. rewrite (E A) by lia. destruct (Nat.ltb_spec i (3 + 3 * K)); [lia|]. cbn [andb].
        destruct (Nat.eqb_spec i k); [lia|ring]. }
    rewrite Rplus_0_l. rewrite (sum_delta' _ (i - (3 + 3 * K))); [|intros k Hk Hne|lia].
    + replace (3 + 3 * K + (i - (3 + 3 * K)))%nat with i by lia. rewrite !E by lia.
      destruct (Nat.ltb_spec i (3 + 3 * K)); [lia|]. cbn [andb]. rewrite Nat.eqb_refl.
      ring.
    + rewrite (E A) by lia. destruct (Nat.ltb_spec i (3 + 3 * K)); [lia|]. cbn [andb].
      destruct (Nat.eqb_spec i (3 + 3 * K + k)); [lia|ring].
Qed.
Lemma AdB_eye K : put (meye (9 + 3 * K)) 0 0 (meye (3 + 3 * K)) = meye (9 + 3 * K).
Proof.
  apply mat_ext; mdim. intros i j Hi Hj. mdim. rewrite ent_put by (mdim; lia). mdim.
  destruct (inwin 0 (3 + 3 * K) i && inwin 0 (3 + 3 * K) j) eqn:E; [|reflexivity].
  apply andb_true_iff in E. rewrite !inwin_true in E. rewrite !ent_eye by lia. rewrite !Nat.sub_0_r. reflexivity.
Qed.
Lemma AdB_inv K X : SEK K X -> inverse_of (9 + 3 * K) (AdB K X) (AdB K (sekinv K X)).
Proof.
  intros H. pose proof (Ad_inv K X H) as (A1 & A2 & A3 & A4 & A5 & A6).
  split; [reflexivity|]. split; [reflexivity|]. split; [reflexivity|]. split; [reflexivity|].
  unfold AdB. split; rewrite AdB_eq_blocks by mdim; rewrite ?A5, ?A6; apply AdB_eye.
Qed.

(** masking the biases commutes with a change of coordinates of the group part *)
Lemma mask_AdB_gen K X P c : nr P = (9 + 3 * K)%nat -> nc P = (9 + 3 * K)%nat ->
  mask_diag (biasm K) c (AdB K X *M P *M mT (AdB K X)) =
  AdB K X *M mask_diag (biasm K) c P *M mT (AdB K X).
Proof.
  intros H1 H2. apply mat_ext; mdim. intros i j Hi Hj. mdim. rewrite ent_mask by mdim.
  set (n := (3 + 3 * K)%nat). assert (9 + 3 * K = n + 6)%nat as Hn by (unfold n; lia).
  rewrite (ent_mult (AdB K X *M P)), (ent_mult (AdB K X *M mask_diag (biasm K) c P)).
  rewrite !nc_mult, nc_mask, H2, Hn, !sum_app.
  assert (forall q r, (q < n + 6)%nat -> (r < n + 6)%nat -> ent (AdB K X) q r =
     if ((q <? n) && (r <? n))%nat then ent (Ad K X) q r else if Nat.eqb q r then 1 else 0) as EA.
  { intros q r Hq Hr. rewrite ent_AdB by lia. reflexivity. }
  assert (forall q r, (q < n + 6)%nat -> (r < n + 6)%nat -> ent (mask_diag (biasm K) c P) q r =
     if ((n <=? q) || (n <=? r))%nat then (if Nat.eqb q r then c else 0) else ent P q r) as EM.
  { intros q r Hq Hr. rewrite ent_mask by lia. reflexivity. }
  unfold biasm. fold n.
  (* row i of AdB * mask *)
  assert (forall r, (r < n + 6)%nat -> ent (AdB K X *M mask_diag (biasm K) c P) i r =
     if (i <? n)%nat then (if (r <? n)%nat then sum n (fun k => ent (Ad K X) i k * ent P k r) else 0)
     else if Nat.eqb i r then c else 0) as ER.
  { intros r Hr. rewrite ent_mult, nc_AdB, Hn, sum_app.
    destruct (Nat.ltb_spec i n).
    - rewrite (sum_zero 6).
      2:{ intros k Hk. rewrite EA by lia. destruct (Nat.ltb_spec i n), (Nat.ltb_spec (n + k) n); try lia.
          cbn [andb]. destruct (Nat.eqb_spec i (n + k)); [lia|ring]. }
      rewrite Rplus_0_r. destruct (Nat.ltb_spec r n).
      + apply sum_ext; intros k Hk. rewrite EA, EM by lia.
        destruct (Nat.ltb_spec i n), (Nat.ltb_spec k n), (Nat.leb_spec n k), (Nat.leb_spec n r); try lia. reflexivity.
      + apply sum_zero. intros k Hk. rewrite EM by lia.
        destruct (Nat.leb_spec n k), (Nat.leb_spec n r); try lia. cbn [orb]. destruct (Nat.eqb_spec k r); [lia|ring].
    - rewrite (sum_zero n).
      2:{ intros k Hk. rewrite EA by lia. destruct (Nat.ltb_spec i n); [lia|]. cbn [andb].
          destruct (Nat.eqb_spec i k); [lia|ring]. }
      rewrite Rplus_0_l, (sum_delta' _ (i - n)); [|intros k Hk Hne|lia].
      + replace (n + (i - n))%nat with i by lia. rewrite EA, EM by lia.
        destruct (Nat.ltb_spec i n), (Nat.leb_spec n i); try lia. cbn [andb orb]. rewrite Nat.eqb_refl. ring.
      + rewrite EA by lia. destruct (Nat.ltb_spec i n); [lia|]. cbn [andb].
        destruct (Nat.eqb_spec i (n + k)); [lia|ring]. }
  assert (forall r, (r < n)%nat -> (i < n)%nat -> ent (AdB K X *M P) i r = sum n (fun k => ent (Ad K X) i k * ent P k r)) as ER2.
  { intros r Hr Hin. rewrite ent_mult, nc_AdB, Hn, sum_app, (sum_zero 6).
    - rewrite Rplus_0_r. apply sum_ext; intros k Hk. rewrite EA by lia.
      destruct (Nat.ltb_spec i n), (Nat.ltb_spec k n); try lia. reflexivity.
    - intros k Hk. rewrite EA by lia. destruct (Nat.ltb_spec (n + k) n); [lia|]. rewrite andb_false_r.
      destruct (Nat.eqb_spec i (n + k)); [lia|ring]. }
  destruct (Nat.leb_spec n i); cbn [orb]; [|destruct (Nat.leb_spec n j); cbn [orb]].
  - rewrite (sum_zero n).
    2:{ intros k Hk. rewrite ER by lia. destruct (Nat.ltb_spec i n); [lia|]. destruct (Nat.eqb_spec i k); [lia|ring]. }
    rewrite Rplus_0_l, (sum_delta' _ (i - n)); [|intros k Hk Hne|lia].
    + replace (n + (i - n))%nat with i by lia. rewrite ER, ent_T, EA by lia.
      destruct (Nat.ltb_spec i n); [lia|]. rewrite andb_false_r, Nat.eqb_refl, (Nat.eqb_sym j i).
      destruct (Nat.eqb i j); ring.
    + rewrite ER by lia. destruct (Nat.ltb_spec i n); [lia|]. destruct (Nat.eqb_spec i (n + k)); [lia|ring].
  - rewrite (sum_zero 6).
    2:{ intros k Hk. rewrite ER by lia. destruct (Nat.ltb_spec i n), (Nat.ltb_spec (n + k) n); try lia. ring. }
    rewrite Rplus_0_r, sum_zero; [destruct (Nat.eqb_spec i j); [lia|ring]|].
    intros k Hk. rewrite ent_T, EA by lia. destruct (Nat.ltb_spec j n); [lia|]. cbn [andb].
    destruct (Nat.eqb_spec j k); [lia|ring].
  - f_equal.
    + apply sum_ext; intros k Hk. rewrite ER, ER2 by lia.
      destruct (Nat.ltb_spec i n), (Nat.ltb_spec k n); try lia. reflexivity.
    + rewrite !sum_zero; [reflexivity| |].
      * intros k Hk. rewrite ER by lia. destruct (Nat.ltb_spec i n), (Nat.ltb_spec (n + k) n); try lia. ring.
      * intros k Hk. rewrite ent_T, EA by lia. destruct (Nat.ltb_spec (n + k) n); [lia|]. rewrite andb_false_r.
        destruct (Nat.eqb_spec j (n + k)); [lia|ring].
Qed.

Lemma mask_AdB K X P : nr P = (9 + 3 * K)%nat -> nc P = (9 + 3 * K)%nat ->
  mask_diag (biasm K) c4 (AdB K X *M P *M mT (AdB K X)) =
  AdB K X *M mask_diag (biasm K) c4 P *M mT (AdB K X).
Proof. intros; apply mask_AdB_gen; auto. Qed.

(** the covariance the update works with *)
Definition work_cov (K : nat) (en : bool) (P : mat) : mat := if en then P else mask_diag (biasm K) c4 P.
Definition Sof (P H N : mat) : mat := H *M P *M mT H +M N.
Definition Gof (P H Si : mat) : mat := P *M mT H *M Si.
Definition jos (n : nat) (P H N G : mat) : mat := (meye n -M G *M H) *M P *M mT (meye n -M G *M H) +M G *M N *M mT G.

Lemma kalman_gain_ok P H N n m : nr P = n -> nc P = n -> nr H = m -> nc H = n -> nr N = m -> nc N = m ->
  kalman_gain P H N = match minv (Sof P H N) with Some Si => Ok (Gof P H Si) | None => Fail SingularInverse end.
Proof.
  intros. unfold kalman_gain. rewrite cmul_ok by mdim. cbn [bind]. rewrite cmul_ok by mdim. cbn [bind].
  rewrite cadd_ok by mdim. cbn [bind]. rewrite mmult_assoc. fold (Sof P H N).
  unfold cinv. destruct (minv (Sof P H N)) as [Si|] eqn:E.
  - assert (nr (Sof P H N) = m) as E1 by (unfold Sof; mdim). assert (nc (Sof P H N) = m) as E2 by (unfold Sof; mdim).
    destruct (minv_some _ _ E) as (_ & A1 & A2 & _).
    rewrite ?E1, ?E2, ?Nat.eqb_refl. cbn [bind of_opt]. rewrite cmul_ok by mdim. reflexivity.
  - assert (nr (Sof P H N) = m) as E1 by (unfold Sof; mdim). assert (nc (Sof P H N) = m) as E2 by (unfold Sof; mdim).
    rewrite ?E1, ?E2, ?Nat.eqb_refl. reflexivity.
Qed.

Lemma correction_vector_ok K G Z m : nr G = (9 + 3 * K)%nat -> nc G = m -> nr Z = m -> nc Z = 1%nat ->
  correction_vector 6 G Z =
    Ok (expSEK (sub (G *M Z) 0 0 (3 + 3 * K) 1), sub (G *M Z) (3 + 3 * K) 0 6 1).
Proof.
  intros. unfold correction_vector. rewrite cmul_ok by mdim. cbn [bind].
  rewrite check_true by (apply Nat.eqb_eq; mdim). cbn [bind]. rewrite nr_mult, H.
  rewrite idx_sub by lia. cbn [bind]. replace (9 + 3 * K - 6)%nat with (3 + 3 * K)%nat by lia.
  rewrite cblock_ok by (mdim; lia). cbn [bind]. rewrite (Exp_SEK3_ok K) by mdim. cbn [bind].
  rewrite cblock_ok by (mdim; lia). reflexivity.
Qed.
Lemma joseph_ok n m P H N G : nr P = n -> nc P = n -> nr H = m -> nc H = n -> nr N = m -> nc N = m ->
  nr G = n -> nc G = m -> joseph n P G H N = Ok (jos n P H N G).
Proof.
  intros. unfold joseph, jos. rewrite cmul_ok by mdim. cbn [bind]. rewrite csub_ok by mdim. cbn [bind].
  rewrite cmul_ok by mdim. cbn [bind]. rewrite cmul_ok by mdim. cbn [bind]. rewrite cmul_ok by mdim. cbn [bind].
  rewrite cmul_ok by mdim. cbn [bind]. rewrite cadd_ok by mdim. reflexivity.
Qed.
Lemma reset_yaw_ok K P : nr P = (9 + 3 * K)%nat -> nc P = (9 + 3 * K)%nat ->
  reset_yaw_bias (9 + 3 * K) 6 P = Ok (mask_diag (yawm K) c4 P).
Proof.
  intros H1 H2. unfold reset_yaw_bias. rewrite idx_ok by lia. cbn [bind].
  replace (Z.to_nat (Z.of_nat (9 + 3 * K) - Z.of_nat 6 + 2)) with (5 + 3 * K)%nat by lia.
  rewrite cput_ok by (mdim; lia). cbn [bind]. rewrite cput_ok by (mdim; lia). cbn [bind].
  rewrite cput_ok by (mdim; lia). f_equal.
  apply mat_ext; mdim. intros i j Hi Hj. mdim. rewrite ent_mask by lia.
  rewrite !ent_put by (mdim; lia). mdim. unfold yawm, inwin.
  repeat match goal with |- context [(?a <=? ?b)%nat] => destruct (Nat.leb_spec a b) end;
  repeat match goal with |- context [(?a <? ?b)%nat] => destruct (Nat.ltb_spec a b) end; cbn [andb orb]; try lia;
  repeat match goal with |- context [Nat.eqb ?a ?b] => destruct (Nat.eqb_spec a b) end; cbn [andb orb]; try lia;
  rewrite ?ent_O; try reflexivity.
  subst. rewrite Nat.sub_diag, ent_scl, ent_eye by lia. cbn [Nat.eqb]. unfold c4. ring.
Qed.

Definition dX_of K G Z := expSEK (sub (G *M Z) 0 0 (3 + 3 * K) 1).
Definition dTheta_of K G Z := sub (G *M Z) (3 + 3 * K) 0 6 1.
Definition to_right K e X P := match e with LeftInvariant => AdB K X *M P *M mT (AdB K X) | RightInvariant => P end.
Definition from_right K e X P :=
  match e with LeftInvariant => AdB K (sekinv K X) *M P *M mT (AdB K (sekinv K X)) | RightInvariant => P end.

Lemma to_right_dim K e X P : nr P = (9 + 3 * K)%nat -> nc P = (9 + 3 * K)%nat ->
  nr (to_right K e X P) = (9 + 3 * K)%nat /\ nc (to_right K e X P) = (9 + 3 * K)%nat.
Proof. intros; destruct e; cbn [to_right]; mdim; auto. Qed.
Lemma work_cov_dim K en P : nr (work_cov K en P) = nr P /\ nc (work_cov K en P) = nc P.
Proof. destruct en; auto. Qed.

Lemma dX_SEK K G Z : SEK K (dX_of K G Z).
Proof. apply expSEK_SEK. reflexivity. Qed.

Lemma set3_eta s X T P : set_P (set_theta (set_X s X) T) P =
  mkRS (stype s) X T P (scmap s) (st s) (stprop s) (sQc s) (sbav s) (sen s) (sslip s).
Proof. reflexivity. Qed.

(** closed form of the right-invariant update *)
Lemma CorrectRight_eq K m Z H N s e : wf K s -> measurement K m Z H N ->
  let P1 := to_right K e (sX s) (work_cov K (sen s) (sP s)) in
  CorrectRightInvariant Z H N s e =
  match minv (Sof P1 H N) with
  | None => Fail SingularInverse
  | Some Si =>
    let G := Gof P1 H Si in
    let X' := dX_of K G Z *M sX s in
    Ok (set_P (set_theta (set_X s X') (sTheta s +M put (dTheta_of K G Z) 2 0 (mO 1 1)))
         (from_right K e X' (mask_diag (yawm K) c4 (jos (9 + 3 * K) P1 H N G))))
  end.
Proof.
  intros W (M1 & M2 & M3 & M4 & M5 & M6) P1. pose proof W as W0. destruct W.
  assert (nr P1 = (9 + 3 * K)%nat /\ nc P1 = (9 + 3 * K)%nat) as [D1 D2].
  { apply to_right_dim; destruct (work_cov_dim K (sen s) (sP s)); congruence. }
  unfold CorrectRightInvariant. rewrite (remove_bias_ok K) by auto. cbn [bind].
  fold (work_cov K (sen s) (sP s)).
  assert (dimP s = (9 + 3 * K)%nat) as -> by exact wf_Pc. assert (dimTheta s = 6%nat) as -> by exact wf_Tr.
  assert (forall A (f : mat -> res A),
    bind (match e with LeftInvariant => adj_conj (9 + 3 * K) 6 (sX s) (work_cov K (sen s) (sP s)) | RightInvariant => Ok (work_cov K (sen s) (sP s)) end) f = f P1) as ->.
  { intros A f. destruct (work_cov_dim K (sen s) (sP s)). destruct wf_X. unfold P1. destruct e; cbn [to_right bind]; [|reflexivity].
    rewrite (adj_conj_ok K) by (try congruence; lia). reflexivity. }
  rewrite (kalman_gain_ok P1 H N (9 + 3 * K) m) by auto.
  destruct (minv (Sof P1 H N)) as [Si|] eqn:ES; [|reflexivity]. cbn [bind].
  assert (nr (Sof P1 H N) = m) as E1 by (unfold Sof; mdim).
  destruct (minv_some _ _ ES) as (_ & S1 & S2 & _). rewrite E1 in S1, S2.
  set (G := Gof P1 H Si).
  assert (nr G = (9 + 3 * K)%nat) by (unfold G, Gof; mdim). assert (nc G = m) by (unfold G, Gof; mdim).
  rewrite (correction_vector_ok K G Z m) by auto. cbn [bind].
  fold (dX_of K G Z) (dTheta_of K G Z). pose proof (dX_SEK K G Z) as HdX.
  assert (nr (dTheta_of K G Z) = 6%nat /\ nc (dTheta_of K G Z) = 1%nat) as [T1 T2] by (split; reflexivity).
  rewrite cmul_ok by (destruct HdX, wf_X; congruence). cbn [bind].
  rewrite cput_ok by (mdim; lia). cbn [bind]. rewrite cadd_ok by mdim. cbn [bind].
  rewrite (joseph_ok _ m) by auto. cbn [bind]. rewrite reset_yaw_ok by (unfold jos; mdim). cbn [bind].
  set (X' := dX_of K G Z *M sX s).
  assert (SEK K X') as HX' by (apply SEK_mult; auto).
  destruct e; cbn [from_right bind]; [|reflexivity].
  rewrite (get_Xinv_ok K) by (srs; destruct HX'; lia). cbn [bind]. srs.
  pose proof (SEK_inv K X' HX') as HXi.
  rewrite (adj_conj_ok K) by (try (destruct HXi; lia); unfold jos; mdim). reflexivity.
Qed.

Definition left_in K e X P :=
  match e with LeftInvariant => AdB K (sekinv K X) *M P *M mT (AdB K (sekinv K X)) | RightInvariant => P end.
Definition left_out K e X P :=
  match e with LeftInvariant => P | RightInvariant => AdB K X *M P *M mT (AdB K X) end.

(** closed form of the left-invariant update *)
Lemma CorrectLeft_eq K m Z H N s e : wf K s -> measurement K m Z H N ->
  let P1 := left_in K e (sX s) (work_cov K (sen s) (sP s)) in
  CorrectLeftInvariant Z H N s e =
  match minv (Sof P1 H N) with
  | None => Fail SingularInverse
  | Some Si =>
    let G := Gof P1 H Si in
    let X' := sX s *M dX_of K G Z in
    Ok (set_P (set_theta (set_X s X') (sTheta s +M dTheta_of K G Z))
         (left_out K e X' (jos (9 + 3 * K) P1 H N G)))
  end.
Proof.
  intros W (M1 & M2 & M3 & M4 & M5 & M6) P1. pose proof W as W0. destruct W.
  assert (nr P1 = (9 + 3 * K)%nat /\ nc P1 = (9 + 3 * K)%nat) as [D1 D2].
  { destruct (work_cov_dim K (sen s) (sP s)). unfold P1, left_in. destruct e; mdim; split; congruence. }
  unfold CorrectLeftInvariant. rewrite (remove_bias_ok K) by auto. cbn [bind].
  fold (work_cov K (sen s) (sP s)).
  assert (dimP s = (9 + 3 * K)%nat) as -> by exact wf_Pc. assert (dimTheta s = 6%nat) as -> by exact wf_Tr.
  assert (forall A (f : mat -> res A),
    bind (match e with LeftInvariant => let* Xi := get_Xinv s in adj_conj (9 + 3 * K) 6 Xi (work_cov K (sen s) (sP s)) | RightInvariant => Ok (work_cov K (sen s) (sP s)) end) f = f P1) as ->.
  { intros A f. destruct (work_cov_dim K (sen s) (sP s)). unfold P1. destruct e; cbn [left_in bind]; [|reflexivity].
    pose proof (SEK_inv K _ wf_X) as HXi.
    rewrite (get_Xinv_ok K) by (destruct wf_X; lia). cbn [bind].
    rewrite (adj_conj_ok K) by (destruct HXi; try congruence; lia). reflexivity. }
  rewrite (kalman_gain_ok P1 H N (9 + 3 * K) m) by auto.
  destruct (minv (Sof P1 H N)) as [Si|] eqn:ES; [|reflexivity]. cbn [bind].
  assert (nr (Sof P1 H N) = m) as E1 by (unfold Sof; mdim).
  destruct (minv_some _ _ ES) as (_ & S1 & S2 & _). rewrite E1 in S1, S2.
  set (G := Gof P1 H Si).
  assert (nr G = (9 + 3 * K)%nat) by (unfold G, Gof; mdim). assert (nc G = m) by (unfold G, Gof; mdim).
  rewrite (correction_vector_ok K G Z m) by auto. cbn [bind].
  fold (dX_of K G Z) (dTheta_of K G Z). pose proof (dX_SEK K G Z) as HdX.
  assert (nr (dTheta_of K G Z) = 6%nat /\ nc (dTheta_of K G Z) = 1%nat) as [T1 T2] by (split; reflexivity).
  rewrite cmul_ok by (destruct HdX, wf_X; congruence). cbn [bind].
  rewrite cadd_ok by mdim. cbn [bind].
  rewrite (joseph_ok _ m) by auto. cbn [bind].
  set (X' := sX s *M dX_of K G Z).
  assert (SEK K X') as HX' by (apply SEK_mult; auto).
  destruct e; cbn [left_out bind]; [reflexivity|].
  rewrite (adj_conj_ok K) by (try (destruct HX'; lia); unfold jos; mdim). reflexivity.
Qed.
