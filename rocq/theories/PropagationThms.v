(** C16, C17, C20: group, covariance and bookkeeping of the propagation. *)
From Coq Require Import Reals ZArith List Bool Lia Lra.
From Verif Require Import Res Vec3 Mat LieGroup MatInv Psd Spec LieSO3 LieSEK RobotState StateProofs Inekf SpecFilter
  InekfProofs Imu Propagation SpecProp Blk PropagationProofs.
Import ListNotations.
Local Open Scope R_scope.

Lemma rate_eq ip m bg ba : fst (body_rates ip m bg ba) = rate ip m bg. Proof. reflexivity. Qed.
Lemma accel_eq ip m bg ba : snd (body_rates ip m bg ba) = accel ip m bg ba. Proof. reflexivity. Qed.

(** one step, closed form with the specification's rates *)
Lemma step_eq K ip m s t0 : wfp K s -> stprop s = Some t0 ->
  let w := rate ip m (gbias s) in let a := accel ip m (gbias s) (abias s) in let dt := i_t m - t0 in
  propagate_with ip m s =
  Ok (mkRS (stype s) (stepX K (sX s) w a dt) (sTheta s) (next_cov K ip s w a dt) (scmap s)
        (Some (i_t m)) (Some (i_t m)) (sQc s) (sbav s) (sen s) (sslip s)).
Proof. intros Wp Ht w a dt. apply (propagate_ok K ip m s t0 Wp Ht). Qed.

Lemma step_wfp K ip m s t0 s' : wfp K s -> stprop s = Some t0 -> propagate_with ip m s = Ok s' ->
  wfp K s' /\ stprop s' = Some (i_t m) /\ st s' = Some (i_t m) /\ sTheta s' = sTheta s /\ sQc s' = sQc s /\
  scmap s' = scmap s /\ sbav s' = sbav s /\ sen s' = sen s /\ sslip s' = sslip s /\
  (forall k, (2 <= k < K)%nat -> col (sX s') k = col (sX s) k).
Proof.
  intros Wp Ht H. pose proof Wp as [[WX WT1 WT2 WP1 WP2] HK HT HQ1 HQ2].
  rewrite (step_eq K ip m s t0 Wp Ht) in H. injection H as <-. cbn [stprop st sTheta sQc scmap sbav sen sslip sX].
  split; [|repeat split].
  - constructor; auto. constructor; cbn [sX sTheta sP]; auto.
    + apply stepX_SEK; auto.
    + apply nr_next.
    + apply nc_next; auto.
  - intros k Hk. unfold stepX. rewrite col_aff by lia. destruct k as [|[|k]]; [lia|lia|reflexivity].
Qed.

Lemma set_queue_prev ip q : ip_prev (set_queue ip q) = ip_prev ip. Proof. reflexivity. Qed.

(** [propagate_with] reads only the configuration of the sensor object *)
Definition same_cfg (p p' : imu_prop) : Prop :=
  ip_err p' = ip_err p /\ ip_static p' = ip_static p /\ ip_init_size p' = ip_init_size p /\
  ip_use_ori p' = ip_use_ori p /\ ip_Rib p' = ip_Rib p /\ ip_gyro_cov p' = ip_gyro_cov p /\
  ip_accel_cov p' = ip_accel_cov p /\ ip_gyro_bias_cov p' = ip_gyro_bias_cov p /\
  ip_accel_bias_cov p' = ip_accel_bias_cov p /\ ip_bg0 p' = ip_bg0 p /\ ip_ba0 p' = ip_ba0 p /\
  ip_enable p' = ip_enable p /\ ip_t p' = ip_t p /\ ip_bias_init p' = ip_bias_init p /\ ip_vec p' = ip_vec p.
Lemma same_cfg_refl p : same_cfg p p. Proof. repeat split. Qed.
Lemma same_cfg_trans p q r : same_cfg p q -> same_cfg q r -> same_cfg p r.
Proof. unfold same_cfg. intuition congruence. Qed.
Lemma propagate_cfg p p' m s : same_cfg p p' -> propagate_with p' m s = propagate_with p m s.
Proof.
  intros (E1 & E2 & E3 & E4 & E5 & E6 & E7 & E8 & E9 & E10 & E11 & E12 & E13 & E14 & E15).
  unfold propagate_with, body_rates, StateTransitionMatrix, DiscreteNoiseMatrix.
  rewrite E1, E5, E6, E7, E8, E9, E12, E13. reflexivity.
Qed.

Lemma Propagate_empty ip s : ip_queue ip = [] -> Propagate ip s = Ok (false, ip, s).
Proof. intros H. unfold Propagate. rewrite H. reflexivity. Qed.

Lemma run_spec ip s bs n ip' s' m0 : ip_prev ip = Some m0 -> run ip s bs = Ok (n, ip', s') ->
  exists used m1, used ++ m1 :: ip_queue ip' = m0 :: ip_queue ip ++ concat bs /\
    ip_prev ip' = Some m1 /\ length used = n /\ same_cfg ip ip' /\
    foldM (fun s m => propagate_with ip m s) s used = Ok s'.
Proof.
  revert ip s n m0. induction bs as [|b bs IH]; intros ip s n m0 Hp H.
  - cbn in H. injection H as <- <- <-. exists [], m0. cbn. rewrite app_nil_r. repeat split; auto.
  - cbn [run] in H. apply bind_inv in H. destruct H as ([[ok ip1] s1] & H1 & H).
    apply bind_inv in H. destruct H as ([[n2 ip2] s2] & H2 & H). injection H as <- <- <-.
    unfold Propagate in H1. cbn [ip_queue set_queue] in H1.
    destruct (ip_queue ip ++ b) as [|x q] eqn:Eq.
    + injection H1 as <- <- <-. 
      destruct (IH (set_queue ip []) s n2 m0 Hp H2) as (used & m1 & U1 & U2 & U3 & U4 & U5).
      exists used, m1. split; [|split; [|split; [|split]]]; auto.
      * rewrite U1. cbn [ip_queue set_queue]. cbn [concat]. rewrite (app_assoc (ip_queue ip)), Eq. reflexivity.
    + cbn [set_queue ip_prev set_prev] in H1. rewrite Hp in H1. cbn [of_opt bind] in H1.
      apply bind_inv in H1. destruct H1 as (s3 & H3 & H1). injection H1 as <- <- <-.
      match type of H2 with run ?p _ _ = _ => set (ipn := p) in * end.
      assert (same_cfg ip ipn) as Cn by (repeat split).
      destruct (IH ipn s3 n2 x eq_refl H2) as (used & m1 & U1 & U2 & U3 & U4 & U5).
      exists (m0 :: used), m1. split; [|split; [|split; [|split]]]; auto.
      * cbn [app]. rewrite U1. cbn [ip_queue concat]. subst ipn. cbn [ip_queue set_prev set_queue].
        rewrite (app_assoc (ip_queue ip)), Eq. reflexivity.
      * cbn [length]. lia.
      * cbn [foldM]. rewrite (propagate_cfg ip _ m0 s) in H3 by (repeat split). rewrite H3. cbn [bind].
        rewrite <- U5. clear - Cn. revert s3. induction used as [|m u IHu]; intros s; [reflexivity|]. cbn [foldM].
        rewrite (propagate_cfg ip ipn m s) by auto.
        destruct (propagate_with ip m s); cbn [bind]; auto.
Qed.

Lemma fold_wfp K ip used : forall s s' t0, wfp K s -> stprop s = Some t0 ->
  foldM (fun s m => propagate_with ip m s) s used = Ok s' ->
  wfp K s' /\ stprop s' = Some (last (map i_t used) t0) /\ sTheta s' = sTheta s /\ sQc s' = sQc s /\
  scmap s' = scmap s /\ sbav s' = sbav s /\ sen s' = sen s /\ sslip s' = sslip s /\
  (used <> [] -> st s' = stprop s') /\ (used = [] -> s' = s) /\
  (forall k, (2 <= k < K)%nat -> col (sX s') k = col (sX s) k).
Proof.
  induction used as [|m u IH]; intros s s' t0 W Ht H.
  - cbn in H. injection H as <-. repeat split; auto; try apply W. intros []; reflexivity.
  - cbn [foldM] in H. apply bind_inv in H. destruct H as (s1 & H1 & H).
    destruct (step_wfp K ip m s t0 s1 W Ht H1) as (A1 & A2 & A3 & A4 & A5 & A6 & A7 & A8 & A9 & A10).
    destruct (IH s1 s' (i_t m) A1 A2 H) as (B1 & B2 & B3 & B4 & B5 & B6 & B7 & B8 & B9 & B10 & B11).
    split; [exact B1|]. split.
    { rewrite B2. f_equal. cbn [map]. destruct u as [|x u]; [reflexivity|].
      cbn [map last]. clear. revert x. induction u as [|y u IHu]; intros x; [reflexivity|]. cbn [map]. apply IHu. }
    split; [congruence|]. split; [congruence|]. split; [congruence|]. split; [congruence|]. split; [congruence|].
    split; [congruence|]. split; [|split; [discriminate|]].
    + intros _. destruct u as [|x u]; [|apply B9; discriminate].
      rewrite B10 by auto. congruence.
    + intros k Hk. rewrite B11, A10 by auto. reflexivity.
Qed.

Lemma fold_total K ip used : forall s t0, wfp K s -> stprop s = Some t0 ->
  exists s', foldM (fun s m => propagate_with ip m s) s used = Ok s'.
Proof.
  induction used as [|m u IH]; intros s t0 W Ht; [eexists; reflexivity|]. cbn [foldM].
  pose proof (step_eq K ip m s t0 W Ht) as E. cbv zeta in E. rewrite E. cbn [bind].
  destruct (step_wfp K ip m s t0 _ W Ht E) as (A1 & A2 & _). apply (IH _ (i_t m)); auto.
Qed.

Lemma run_total K bs : forall ip s m0 t0, wfp K s -> stprop s = Some t0 -> ip_prev ip = Some m0 ->
  exists n ip' s', run ip s bs = Ok (n, ip', s').
Proof.
  induction bs as [|b bs IH]; intros ip s m0 t0 W Ht Hp; [do 3 eexists; reflexivity|].
  cbn [run]. unfold Propagate. cbn [ip_queue set_queue].
  destruct (ip_queue ip ++ b) as [|x q].
  - cbn [bind]. destruct (IH (set_queue ip []) s m0 t0 W Ht Hp) as (n & ip' & s' & E). rewrite E. cbn [bind].
    do 3 eexists; reflexivity.
  - cbn [set_queue set_prev ip_prev]. rewrite Hp. cbn [of_opt bind].
    match goal with |- context [propagate_with ?p m0 s] => pose proof (step_eq K p m0 s t0 W Ht) as E end.
    cbv zeta in E. rewrite E. cbn [bind]. destruct (step_wfp K _ m0 s t0 _ W Ht E) as (A1 & A2 & _).
    match goal with |- context [run ?p ?s1 bs] => destruct (IH p s1 x (i_t m0) A1 A2 eq_refl) as (n & ip' & s' & E2) end.
    rewrite E2. cbn [bind]. do 3 eexists; reflexivity.
Qed.

(** C16 *)
Lemma thm_propagation_group K bs ip s m0 t0 : wfp K s -> stprop s = Some t0 -> ip_prev ip = Some m0 ->
  exists n ip' s', run ip s bs = Ok (n, ip', s') /\ SEK K (sX s') /\ wfp K s' /\
    (forall k, (2 <= k < K)%nat -> col (sX s') k = col (sX s) k) /\
    sTheta s' = sTheta s /\ sQc s' = sQc s /\ scmap s' = scmap s /\ sen s' = sen s.
Proof.
  intros W Ht Hp. destruct (run_total K bs ip s m0 t0 W Ht Hp) as (n & ip' & s' & E).
  destruct (run_spec _ _ _ _ _ _ _ Hp E) as (used & m1 & U1 & U2 & U3 & U4 & U5).
  destruct (fold_wfp K ip used s s' t0 W Ht U5) as (B1 & B2 & B3 & B4 & B5 & B6 & B7 & B8 & B9 & B10 & B11).
  exists n, ip', s'. split; [auto|]. split; [apply B1|]. repeat (split; [assumption|]). assumption.
Qed.

(** C20 *)
Lemma thm_each_sample_once K bs ip s m0 t0 n ip' s' : wfp K s -> stprop s = Some t0 -> ip_prev ip = Some m0 ->
  run ip s bs = Ok (n, ip', s') ->
  exists used m1, used ++ m1 :: ip_queue ip' = m0 :: ip_queue ip ++ concat bs /\
    ip_prev ip' = Some m1 /\ length used = n /\
    foldM (fun s m => propagate_with ip m s) s used = Ok s' /\
    stprop s' = Some (last (map i_t used) t0) /\ (n = O -> s' = s).
Proof.
  intros W Ht Hp E. destruct (run_spec _ _ _ _ _ _ _ Hp E) as (used & m1 & U1 & U2 & U3 & U4 & U5).
  destruct (fold_wfp K ip used s s' t0 W Ht U5) as (B1 & B2 & B3 & B4 & B5 & B6 & B7 & B8 & B9 & B10 & B11).
  exists used, m1. repeat (split; [assumption|]). intros Hn. apply B10. destruct used; [reflexivity|cbn in U3; lia].
Qed.
Lemma thm_null_prev ip s x q : ip_queue ip = x :: q -> ip_prev ip = None -> Propagate ip s = Fail NullDeref.
Proof. intros H1 H2. unfold Propagate. rewrite H1, H2. reflexivity. Qed.

(** ** C17 *)
Definition emb (n r : nat) (M : M3) : mat := put (mO n n) r r (ofM3 M).
Lemma emb_conj n r M : (r + 3 <= n)%nat ->
  emb n r M = put (mO n 3) r 0 (meye 3) *M ofM3 M *M mT (put (mO n 3) r 0 (meye 3)).
Proof.
  intros H. set (J := put (mO n 3) r 0 (meye 3)).
  assert (forall i k, (i < n)%nat -> (k < 3)%nat -> ent J i k = if Nat.eqb i (r + k) then 1 else 0) as EJ.
  { intros i k Hi Hk. unfold J. rewrite ent_put by (mdim; lia). mdim. rewrite ent_O. unfold inwin.
    destruct (Nat.eqb_spec i (r + k)).
    - destruct (Nat.leb_spec r i), (Nat.ltb_spec i (r + 3)), (Nat.leb_spec 0 k), (Nat.ltb_spec k (0 + 3)); try lia.
      cbn [andb]. rewrite ent_eye by lia. destruct (Nat.eqb_spec (i - r) (k - 0)); [reflexivity|lia].
    - destruct ((r <=? i)%nat && (i <? r + 3)%nat && ((0 <=? k)%nat && (k <? 0 + 3)%nat)) eqn:E; [|reflexivity].
      apply andb_true_iff in E. destruct E as [E _]. apply andb_true_iff in E. destruct E as [E1 E2].
      apply Nat.leb_le in E1. apply Nat.ltb_lt in E2. rewrite ent_eye by lia.
      destruct (Nat.eqb_spec (i - r) (k - 0)); [lia|reflexivity]. }
  unfold emb. apply mat_ext; try reflexivity. intros i j Hi Hj. mdim.
  rewrite ent_mult. mdim. cbn [sum]. rewrite !ent_mult. assert (nc J = 3%nat) as -> by reflexivity. cbn [sum]. rewrite !ent_T, !EJ by lia.
  rewrite ent_put by (mdim; lia). mdim. rewrite ent_O.
  destruct (inwin r 3 i) eqn:E1; [apply inwin_true in E1|apply inwin_false in E1].
  - destruct (inwin r 3 j) eqn:E2; [apply inwin_true in E2|apply inwin_false in E2]; cbn [andb].
    + destruct (i - r)%nat as [|[|[|a]]] eqn:Ea; try lia; destruct (j - r)%nat as [|[|[|b]]] eqn:Eb; try lia;
        repeat match goal with |- context [Nat.eqb ?x ?y] => destruct (Nat.eqb_spec x y); try lia end; ring.
    + repeat match goal with |- context [Nat.eqb j ?y] => destruct (Nat.eqb_spec j y); try lia end; ring.
  - cbn [andb]. repeat match goal with |- context [Nat.eqb i ?y] => destruct (Nat.eqb_spec i y); try lia end; ring.
Qed.
Lemma psd_emb n r M : (r + 3 <= n)%nat -> psd (ofM3 M) -> psd (emb n r M).
Proof. intros H HM. rewrite emb_conj by auto. apply psd_conj; auto. Qed.

Lemma put_emb n Q r M : nr Q = n -> nc Q = n -> (r + 3 <= n)%nat ->
  (forall i j, (r <= i < r + 3)%nat -> ent Q i j = 0) ->
  put Q r r (ofM3 M) = Q +M emb n r M.
Proof.
  intros H1 H2 H3 H. unfold emb. apply mat_ext; mdim. intros i j Hi Hj. mdim.
  rewrite ent_plus by mdim. rewrite !ent_put by (mdim; lia). mdim. rewrite ent_O.
  destruct (inwin r 3 i) eqn:E1; cbn [andb]; [|ring].
  destruct (inwin r 3 j) eqn:E2; cbn [andb]; [|ring].
  apply inwin_true in E1. rewrite (H i j) by lia. ring.
Qed.

Lemma psd_Qfull K ip Q : (2 <= K)%nat -> nr Q = (9 + 3 * K)%nat -> nc Q = (9 + 3 * K)%nat ->
  noise_ok ip -> contact_noise K Q -> psd (Qfull K ip Q).
Proof.
  intros HK H1 H2 (N1 & N2 & N3 & N4) [HQ HZ]. set (n := (9 + 3 * K)%nat) in *.
  assert (Qfull K ip Q = (let Q' := Q +M emb n 0 (ip_gyro_cov ip) +M emb n 3 (ip_accel_cov ip) in
    if ip_enable ip then Q' +M emb n (3 + 3 * K) (ip_gyro_bias_cov ip) +M emb n (6 + 3 * K) (ip_accel_bias_cov ip) else Q')) as ->.
  { unfold Qfull. cbv zeta.
    assert (forall r M i j, (r + 3 <= n)%nat -> (i < r \/ r + 3 <= i)%nat -> ent (emb n r M) i j = 0) as EZ.
    { intros r M i j Hr Hi. unfold emb. rewrite ent_put_out by (mdim; lia). apply ent_O. }
    assert (put Q 0 0 (ofM3 (ip_gyro_cov ip)) = Q +M emb n 0 (ip_gyro_cov ip)) as ->.
    { apply (put_emb n); mdim; try lia. intros; apply HZ; lia. }
    assert (put (Q +M emb n 0 (ip_gyro_cov ip)) 3 3 (ofM3 (ip_accel_cov ip)) =
      Q +M emb n 0 (ip_gyro_cov ip) +M emb n 3 (ip_accel_cov ip)) as ->.
    { apply (put_emb n); mdim; try lia. intros; rewrite ent_plus, HZ, EZ by (try (unfold emb; mdim); lia); ring. }
    destruct (ip_enable ip); [|reflexivity].
    rewrite (put_emb n _ (3 + 3 * K)); mdim; [|intros; rewrite !ent_plus, HZ, !EZ by (try (unfold emb; mdim); lia); ring].
    rewrite (put_emb n _ (6 + 3 * K)); mdim; [intros; rewrite !ent_plus, HZ, !EZ by (try (unfold emb; mdim); lia); ring]. }
  cbv zeta. assert (forall r M, (r + 3 <= n)%nat -> psd (ofM3 M) -> psd (emb n r M)) as PE by (intros; apply psd_emb; auto).
  destruct (ip_enable ip); repeat (apply psd_plus; [unfold emb; mdim| |apply PE; auto; lia]); auto.
Qed.

Lemma thm_step_psd K ip m s t0 s' : wfp K s -> stprop s = Some t0 -> noise_ok ip -> contact_noise K (sQc s) ->
  t0 <= i_t m -> psd (sP s) -> propagate_with ip m s = Ok s' -> psd (sP s').
Proof.
  intros Wp Ht HN HC Hle HP H. rewrite (step_eq K ip m s t0 Wp Ht) in H. injection H as <-. cbn [sP].
  pose proof Wp as [[WX WT1 WT2 WP1 WP2] HK HT HQ1 HQ2].
  assert (psd (prior_cov K ip s (rate ip m (gbias s)) (accel ip m (gbias s) (abias s)) (i_t m - t0))) as PP.
  { unfold prior_cov. apply psd_plus; [mdim| |].
    - apply psd_conj; auto. mdim.
    - apply psd_scl; [lra|]. apply psd_conj; [mdim|]. apply psd_Qfull; auto. }
  unfold next_cov. destruct (ip_enable ip); auto. apply psd_mask_diag; auto; lra.
Qed.

Lemma thm_run_psd K ip used : forall s s' t0, wfp K s -> stprop s = Some t0 -> noise_ok ip ->
  contact_noise K (sQc s) -> nondec t0 (map i_t used) -> psd (sP s) ->
  foldM (fun s m => propagate_with ip m s) s used = Ok s' -> psd (sP s').
Proof.
  induction used as [|m u IH]; intros s s' t0 W Ht HN HC HT HP H.
  - cbn in H. injection H as <-. exact HP.
  - cbn [foldM] in H. apply bind_inv in H. destruct H as (s1 & H1 & H). destruct HT as [T1 T2].
    destruct (step_wfp K ip m s t0 s1 W Ht H1) as (A1 & A2 & A3 & A4 & A5 & _).
    apply (IH s1 s' (i_t m)); auto; [rewrite A5; auto|]. apply (thm_step_psd K ip m s t0); auto.
Qed.

Lemma nondec_app t l1 l2 : nondec t (l1 ++ l2) -> nondec t l1.
Proof. revert t; induction l1 as [|x l IH]; intros t H; cbn in *; auto. destruct H; split; eauto. Qed.

Lemma thm_run_psd' K ip s bs n ip' s' m0 t0 : wfp K s -> stprop s = Some t0 -> ip_prev ip = Some m0 ->
  noise_ok ip -> contact_noise K (sQc s) -> nondec t0 (map i_t (m0 :: ip_queue ip ++ concat bs)) -> psd (sP s) ->
  run ip s bs = Ok (n, ip', s') -> psd (sP s').
Proof.
  intros W Ht Hp HN HC HT HP E. destruct (run_spec _ _ _ _ _ _ _ Hp E) as (used & m1 & U1 & U2 & U3 & U4 & U5).
  apply (thm_run_psd K ip used s s' t0); auto. rewrite <- U1, map_app in HT. apply nondec_app in HT. exact HT.
Qed.

(** psd matrices have non-negative diagonals *)
Lemma quad_basis P k : nr P = nc P -> (k < nr P)%nat -> quad P (mk (nr P) 1 (fun i _ => if Nat.eqb i k then 1 else 0)) = ent P k k.
Proof.
  intros Hs Hk. rewrite quad_sum by reflexivity. rewrite <- Hs.
  rewrite (sum_delta' _ k); [|intros j Hj Hne|lia].
  - rewrite (sum_delta' _ k); [|intros i Hi Hne|lia].
    + rewrite !ent_mk by lia. rewrite Nat.eqb_refl. ring.
    + rewrite (ent_mk _ _ _ i) by lia. destruct (Nat.eqb_spec i k); [lia|ring].
  - apply sum_zero. intros i Hi. rewrite (ent_mk _ _ _ j) by lia. destruct (Nat.eqb_spec j k); [lia|ring].
Qed.
Lemma psd_diag P k : psd P -> (k < nr P)%nat -> 0 <= ent P k k.
Proof.
  intros [[H0 H1] H2] Hk. rewrite <- quad_basis by auto. apply H2; reflexivity.
Qed.
