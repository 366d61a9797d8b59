(** Proofs for C30: the filter does not look at addresses, only through them. *)
From Coq Require Import Reals ZArith List Bool Arith Lia FunctionalExtensionality.
From Verif Require Import Res Vec3 Mat LieGroup RobotState Inekf Imu Propagation Queue VelCorr LegCorr Estimator ConvFilter.
Import ListNotations.
Local Open Scope R_scope.

(** [g]: cells that exist but that nothing refers to *)
Definition shp (g : heap) (p : option nat) : option nat := option_map (fun a => length g + a)%nat p.
Definition sh (g : heap) (s : rstate) : rstate := set_cmap s (map (shp g) (scmap s)).
Definition shm (g : heap) (m : nat -> option nat) : nat -> option nat := fun id => shp g (m id).
Definition shl (g : heap) (c : leg_corr) : leg_corr := lc_set_map c (shm g (lc_map c)).
Definition shc (g : heap) (c : corr_obj) : corr_obj := match c with CVel c => CVel c | CLeg c => CLeg (shl g c) end.

Lemma shp_get g h p : heap_get (g ++ h) (shp g p) = heap_get h p.
Proof. destruct p as [a|]; [|reflexivity]. cbn. rewrite nth_error_app2 by lia. replace (length g + a - length g)%nat with a by lia. reflexivity. Qed.
Lemma upd_app {A} (g h : list A) a x : upd (g ++ h) (length g + a) x = g ++ upd h a x.
Proof. induction g as [|y g IH]; cbn; [reflexivity|]. rewrite IH. reflexivity. Qed.
Lemma shp_set g h p z : heap_set (g ++ h) (shp g p) z = rmap (fun h => g ++ h) (heap_set h p z).
Proof.
  destruct p as [a|]; [|reflexivity]. cbn [shp option_map heap_set]. rewrite app_length. destruct (Nat.ltb_spec (length g + a) (length g + length h)), (Nat.ltb_spec a (length h)); try lia; cbn [check bind rmap]; [|reflexivity].
  rewrite upd_app. reflexivity.
Qed.
Lemma upd_map {A B} (f : A -> B) : forall l i x, upd (map f l) i (f x) = map f (upd l i x).
Proof. induction l as [|y l IH]; intros [|i] x; cbn; try reflexivity. rewrite IH. reflexivity. Qed.

Ltac step_same :=
  match goal with |- bind ?x _ = rmap _ (bind ?y _) => change x with y; destruct y; cbn [bind]; [|reflexivity] end.
Ltac step_pair :=
  match goal with |- bind ?x _ = rmap _ (bind ?y _) => change x with y; destruct y as [[? ?]|]; cbn [bind]; [|reflexivity] end.

Lemma del_aug_state_sh g h s i : del_aug_state (g ++ h) (sh g s) i = rmap (fun '(h, s) => (g ++ h, sh g s)) (del_aug_state h s i).
Proof.
  unfold del_aug_state. change (dimX (sh g s)) with (dimX s). cbn [sh scmap set_cmap].
  assert (forall l h m, foldM (fun hm i =>
      let '(h, m) := hm in
      let* q := of_opt (nth_error m (i + 1)) BadRead in
      let* _ := check (i <? length m)%nat BadRead in
      let m := upd m i q in
      let* z := heap_get h q in
      let* h := heap_set h q (z - 1) in
      Ok (h, m)) (g ++ h, map (shp g) m) l = rmap (fun '(h, m) => (g ++ h, map (shp g) m)) (foldM (fun hm i =>
      let '(h, m) := hm in
      let* q := of_opt (nth_error m (i + 1)) BadRead in
      let* _ := check (i <? length m)%nat BadRead in
      let m := upd m i q in
      let* z := heap_get h q in
      let* h := heap_set h q (z - 1) in
      Ok (h, m)) (h, m) l)) as HF.
  { clear. induction l as [|i l IH]; intros h m; cbn [foldM]; [reflexivity|].
    rewrite nth_error_map. destruct (nth_error m (i + 1)) as [q|]; cbn [option_map of_opt bind]; [|reflexivity].
    rewrite map_length. destruct (check (i <? length m)%nat BadRead); cbn [bind]; [|reflexivity]. rewrite shp_get.
    destruct (heap_get h q) as [z|]; cbn [bind]; [|reflexivity]. rewrite shp_set. destruct (heap_set h q (z - 1)); cbn [bind rmap]; [|reflexivity].
    rewrite upd_map. apply IH. }
  rewrite HF. match goal with |- bind (rmap _ ?y) _ = rmap _ (bind ?x _) => change y with x; destruct x as [[h1 m1]|] end; cbn [rmap bind]; [|reflexivity].
  rewrite map_length. destruct (check (1 <=? length m1)%nat BadRead); cbn [bind]; [|reflexivity].
  assert (removelast (map (shp g) m1) = map (shp g) (removelast m1)) as ->.
  { clear. induction m1 as [|x [|y m] IH]; [reflexivity|reflexivity|]. cbn [map removelast] in *. rewrite <- IH. reflexivity. }
  cbn [sX set_cmap]. step_same. unfold del_aug_cov, del_aug_noise_cov. cbn [sP sQc set_cmap set_X].
  change (sP (sh g s)) with (sP s).
  destruct (cov_index i) as [n|]; cbn [bind]; [|reflexivity]. destruct (RemoveRowAndColumn (sP s) n 3); cbn [bind]; [|reflexivity].
  cbn [sQc set_P set_cmap set_X]. change (sQc (sh g s)) with (sQc s). destruct (RemoveRowAndColumn (sQc s) n 3); reflexivity.
Qed.
Lemma CR_sh g Z H N s e : CorrectRightInvariant Z H N (sh g s) e = rmap (sh g) (CorrectRightInvariant Z H N s e).
Proof.
  unfold CorrectRightInvariant. cbv zeta. step_same. step_same. step_same. 
  step_pair.
  step_same. step_same. step_same. step_same. step_same. step_same. reflexivity.
Qed.
Lemma vel_update_sh g c m s : vel_update c m (sh g s) = rmap (sh g) (vel_update c m s).
Proof.
  unfold vel_update. cbv zeta. step_same. step_same. step_same. step_same.
  match goal with |- ?a = _ => match type of a with _ => idtac end end. apply (CR_sh g _ _ _ (set_time s (vm_t m))).
Qed.
Lemma vel_Correct_sh g c s a : vel_Correct c (sh g s) a = rmap (fun '(b, c, s) => (b, c, sh g s)) (vel_Correct c s a).
Proof.
  unfold vel_Correct. destruct (vc_queue c ++ hd_batch a) as [|m q]; [reflexivity|]. step_same. destruct (not_past a0 (vm_t m)); [reflexivity|].
  destruct (if too_old (vc_thr c) a0 (vm_t m) then _ else _) as [[r q'] bs]. destruct r as [m'|]; [|reflexivity]. rewrite vel_update_sh.
  destruct (vel_update c m' s); reflexivity.
Qed.
Lemma Propagate_sh g ip s : Propagate ip (sh g s) = rmap (fun '(b, ip, s) => (b, ip, sh g s)) (Propagate ip s).
Proof.
  unfold Propagate. destruct (ip_queue ip) as [|x q]; [reflexivity|]. destruct (ip_prev ip) as [m|]; [|reflexivity]. cbn [of_opt bind].
  assert (forall ip, propagate_with ip m (sh g s) = rmap (sh g) (propagate_with ip m s)) as HP.
  { clear. intros ip. unfold propagate_with. cbv zeta. step_same. step_same. step_same. destruct (body_rates ip m a0 a1) as [w ac].
    step_same. step_same. step_same. step_same. step_same. step_same. step_same. step_same. reflexivity. }
  rewrite HP. destruct (propagate_with _ m s); reflexivity.
Qed.

(** ** legs *)
Lemma stack_leg_sh g s z cov f HNZ : stack_leg (sh g s) z cov f HNZ = stack_leg s z cov f HNZ.
Proof. reflexivity. Qed.
Lemma scan_sh g c (h : heap) s : forall legs id acc, scan_legs (shl g c) (g ++ h) (sh g s) id legs acc = scan_legs c h s id legs acc.
Proof.
  induction legs as [|o legs IH]; intros id acc; cbn [scan_legs]; [reflexivity|]. destruct acc as [[HNZ rem] new].
  cbn [shl lc_map lc_set_map]. unfold shm. destruct (lo_contact o), (lc_map c id) as [p|] eqn:E; cbn [shp option_map bind].
  - change (Some (length g + p)%nat) with (shp g (Some p)). rewrite shp_get. destruct (heap_get h (Some p)) as [z|]; cbn [bind]; [|reflexivity].
    rewrite stack_leg_sh. change (leg_cov (shl g c) o) with (leg_cov c o).
    destruct (stack_leg s z (leg_cov c o) (lo_pos o) HNZ); cbn [bind]; [|reflexivity]. apply IH.
  - apply IH.
  - apply IH.
  - apply IH.
Qed.
Lemma mupd_sh g m id v : mupd (shm g m) id (shp g v) = shm g (mupd m id v).
Proof. extensionality x. unfold mupd, shm. destruct (Nat.eqb x id); reflexivity. Qed.
Lemma remove_sh g (h : heap) s m id : remove_leg (g ++ h, sh g s, shm g m) id = rmap (fun '(h, s, m) => (g ++ h, sh g s, shm g m)) (remove_leg (h, s, m) id).
Proof.
  unfold remove_leg. change (shm g m id) with (shp g (m id)). rewrite shp_get. destruct (heap_get h (m id)) as [z|]; cbn [bind]; [|reflexivity].
  destruct (idx z) as [i|]; cbn [bind]; [|reflexivity]. rewrite del_aug_state_sh. destruct (del_aug_state h s i) as [[h1 s1]|]; cbn [rmap bind]; [|reflexivity].
  change None with (shp g None) at 1. rewrite mupd_sh. reflexivity.
Qed.
Lemma removes_sh g : forall l (h : heap) s m, foldM remove_leg (g ++ h, sh g s, shm g m) l = rmap (fun '(h, s, m) => (g ++ h, sh g s, shm g m)) (foldM remove_leg (h, s, m) l).
Proof.
  induction l as [|id l IH]; intros h s m; cbn [foldM]; [reflexivity|]. rewrite remove_sh. destruct (remove_leg (h, s, m) id) as [[[h1 s1] m1]|]; cbn [rmap bind]; [|reflexivity]. apply IH.
Qed.
Lemma add_sh g c (h : heap) s m P n : add_leg (shl g c) (g ++ h, sh g s, shm g m, P) n = rmap (fun '(h, s, m, P) => (g ++ h, sh g s, shm g m, P)) (add_leg c (h, s, m, P) n).
Proof.
  destruct n as [[id f] cov]. unfold add_leg. cbv zeta. step_same. step_same. change (stype (sh g s)) with (stype s). cbn [lc_err shl lc_set_map lc_contact_cov].
  change (aug_F_G (lc_err c) (sh g s) f) with (aug_F_G (lc_err c) s f). destruct (aug_F_G (lc_err c) s f) as [[F G]|]; cbn [bind]; [|reflexivity].
  step_same. step_same. step_same. step_same. step_same.
  unfold heap_new. change (dimX (sh g s)) with (dimX s). rewrite app_length, <- app_assoc.
  set (u := match stype s with WorldCentric => _ | BodyCentric => _ end).
  assert (forall p, add_aug_state (sh g s) u a5 (lc_contact_cov c) (shp g p) = rmap (fun '(s, i) => (sh g s, i)) (add_aug_state s u a5 (lc_contact_cov c) p)) as HA.
  { intros p. unfold add_aug_state. cbv zeta. do 11 step_same. cbn [rmap]. f_equal. f_equal. unfold sh. cbn [set_cmap scmap]. rewrite map_app. reflexivity. }
  change (Some (length g + length h)%nat) with (shp g (Some (length h))). rewrite HA.
  destruct (add_aug_state s u a5 (lc_contact_cov c) (Some (length h))) as [[s1 i]|]; cbn [rmap bind]; [|reflexivity]. rewrite shp_set.
  destruct (heap_set (h ++ [Z.of_nat (dimX s)]) (Some (length h)) (Z.of_nat i)); cbn [rmap bind]; [|reflexivity]. rewrite mupd_sh. reflexivity.
Qed.
Lemma adds_sh g c : forall l (h : heap) s m P, foldM (add_leg (shl g c)) (g ++ h, sh g s, shm g m, P) l = rmap (fun '(h, s, m, P) => (g ++ h, sh g s, shm g m, P)) (foldM (add_leg c) (h, s, m, P) l).
Proof.
  induction l as [|id l IH]; intros h s m P; cbn [foldM]; [reflexivity|]. rewrite add_sh. destruct (add_leg c (h, s, m, P) id) as [[[[h1 s1] m1] P1]|]; cbn [rmap bind]; [|reflexivity]. apply IH.
Qed.
Lemma leg_update_sh g c (h : heap) m s : leg_update (shl g c) (g ++ h) m (sh g s) = rmap (fun '(c, h, s) => (shl g c, g ++ h, sh g s)) (leg_update c h m s).
Proof.
  unfold leg_update. cbv zeta. change (set_time (sh g s) (lm_t m)) with (sh g (set_time s (lm_t m))). rewrite scan_sh.
  set (s0 := set_time s (lm_t m)). destruct (scan_legs c h s0 0 (lm_legs m) _) as [[[[[H N] Z] rem] new]|]; cbn [bind]; [|reflexivity].
  change (stype (sh g s0)) with (stype s0). cbn [lc_err shl lc_set_map].
  assert ((if (0 <? nr Z)%nat then match stype s0 with WorldCentric => CorrectRightInvariant Z H N (sh g s0) (lc_err c) | BodyCentric => CorrectLeftInvariant Z H N (sh g s0) (lc_err c) end else Ok (sh g s0)) =
          rmap (sh g) (if (0 <? nr Z)%nat then match stype s0 with WorldCentric => CorrectRightInvariant Z H N s0 (lc_err c) | BodyCentric => CorrectLeftInvariant Z H N s0 (lc_err c) end else Ok s0)) as ->.
  { destruct (0 <? nr Z)%nat; [|reflexivity]. destruct (stype s0); [apply CR_sh|].
    unfold CorrectLeftInvariant. cbv zeta. step_same. step_same. step_same.
    step_pair. step_same. step_same. step_same. step_same. reflexivity. }
  match goal with |- bind (rmap _ ?x) _ = _ => destruct x as [s1|] end; cbn [rmap bind]; [|reflexivity].
  change (lc_map (shl g c)) with (shm g (lc_map c)). rewrite removes_sh. destruct (foldM remove_leg (h, s1, lc_map c) rem) as [[[h2 s2] m2]|]; cbn [rmap bind]; [|reflexivity].
  change (sP (sh g s2)) with (sP s2). rewrite adds_sh. destruct (foldM (add_leg c) (h2, s2, m2, sP s2) new) as [[[[h3 s3] m3] P3]|]; reflexivity.
Qed.
Lemma leg_Correct_sh g c (h : heap) s a : leg_Correct (shl g c) (g ++ h) (sh g s) a = rmap (fun '(b, c, h, s) => (b, shl g c, g ++ h, sh g s)) (leg_Correct c h s a).
Proof.
  unfold leg_Correct. change (lc_queue (shl g c)) with (lc_queue c). destruct (lc_queue c ++ hd_batch a) as [|m q]; [reflexivity|]. step_same.
  change (lc_thr (shl g c)) with (lc_thr c). destruct (if too_old (lc_thr c) a0 (lm_t m) then _ else _) as [[r q'] bs]. destruct r as [m'|]; [|reflexivity].
  change (lc_set_queue (shl g c) (q' ++ concat bs)) with (shl g (lc_set_queue c (q' ++ concat bs))). rewrite leg_update_sh.
  destruct (leg_update (lc_set_queue c (q' ++ concat bs)) h m' s) as [[[c1 h1] s1]|]; reflexivity.
Qed.
Lemma correct_all_sh g : forall cs (h : heap) s l, correct_all (map (shc g) cs) (g ++ h) (sh g s) l = rmap (fun '(b, cs, h, s) => (b, map (shc g) cs, g ++ h, sh g s)) (correct_all cs h s l).
Proof.
  induction cs as [|c cs IH]; intros h s l; cbn [map correct_all]; [reflexivity|].
  assert (corr_Correct (shc g c) (g ++ h) (sh g s) (hd_arr l) = rmap (fun '(b, c, h, s) => (b, shc g c, g ++ h, sh g s)) (corr_Correct c h s (hd_arr l))) as ->.
  { destruct c as [c|c]; cbn [shc corr_Correct].
    - rewrite vel_Correct_sh. destruct (vel_Correct c s _) as [[[b c1] s1]|]; reflexivity.
    - rewrite leg_Correct_sh. destruct (leg_Correct c h s _) as [[[[b c1] h1] s1]|]; reflexivity. }
  destruct (corr_Correct c h s (hd_arr l)) as [[[[b c1] h1] s1]|]; cbn [rmap bind]; [|reflexivity]. rewrite IH.
  destruct (correct_all cs h1 s1 (tl_arr l)) as [[[[b2 cs2] h2] s2]|]; reflexivity.
Qed.
