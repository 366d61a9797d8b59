(** Proofs: C79, the filter looks only at differences of time stamps. *)
From Coq Require Import Reals ZArith List Bool Arith Lia Lra.
From Verif Require Import Res Vec3 Mat LieGroup RobotState Inekf Imu Propagation Queue VelCorr LegCorr Estimator SpecEst ConvFilter ClearShift SpecTime.
Import ListNotations.
Local Open Scope R_scope.
Notation L := state_later.

Lemma diff_later d t u : t + d - (u + d) = t - u. Proof. ring. Qed.
Lemma old_later d thr tp t : too_old thr (tp + d) (t + d) = too_old thr tp t.
Proof. unfold too_old. rewrite diff_later. reflexivity. Qed.
Lemma past_later d tp t : not_past (tp + d) (t + d) = not_past tp t.
Proof. unfold not_past. rewrite diff_later. reflexivity. Qed.
Lemma last_map {A B} (f : A -> B) : forall l x, last (map f l) (f x) = f (last l x).
Proof. induction l as [|y [|z l] IH]; intros x; [reflexivity|reflexivity|]. change (last (map f (z :: l)) (f x) = f (last (z :: l) x)). apply IH. Qed.

(** ** Queues *)
Lemma drain_map {A B} (g : A -> B) (p : A -> bool) (p' : B -> bool) : (forall x, p' (g x) = p x) -> forall sched q,
  drain p' (map g q) (map (map g) sched) = let '(r, q', bs) := drain p q sched in (option_map g r, map g q', map (map g) bs).
Proof.
  intros H. assert (forall q, drain_q p' (map g q) = let '(r, q') := drain_q p q in (option_map g r, map g q')) as HQ.
  { induction q as [|x q IH]; [reflexivity|]. cbn [map drain_q]. rewrite H. destruct (p x); [exact IH|reflexivity]. }
  induction sched as [|b bs IH]; intros q; cbn [map drain].
  - rewrite HQ. destruct (drain_q p q); reflexivity.
  - rewrite <- map_app. destruct (q ++ b) as [|x k]; [reflexivity|]. cbn [map]. rewrite H. destruct (p x); [apply IH|reflexivity].
Qed.
Lemma hd_map {A B} (g : A -> B) (l : list (list A)) : hd_batch (map (map g) l) = map g (hd_batch l). Proof. destruct l; reflexivity. Qed.
Lemma tl_map {A B} (g : A -> B) (l : list (list A)) : tl_batch (map (map g) l) = map (map g) (tl_batch l). Proof. destruct l; reflexivity. Qed.
Lemma concat_maps {A B} (g : A -> B) (l : list (list A)) : concat (map (map g) l) = map g (concat l). Proof. symmetry. apply concat_map. Qed.

(** ** Propagation *)
Definition ip_later d (ip : imu_prop) : imu_prop :=
  mkIP (map (imu_later d) (ip_queue ip)) (ip_err ip) (ip_static ip) (ip_init_size ip) (ip_use_ori ip) (ip_Rib ip) (ip_gyro_cov ip) (ip_accel_cov ip)
    (ip_gyro_bias_cov ip) (ip_accel_bias_cov ip) (ip_bg0 ip) (ip_ba0 ip) (ip_enable ip) (ip_t ip)
    (ip_bias_init ip) (ip_vec ip) (option_map (imu_later d) (ip_prev ip)).
Lemma propagate_later d ip m s : propagate_with (ip_later d ip) (imu_later d m) (L d s) = rmap (L d) (propagate_with ip m s).
Proof.
  unfold propagate_with. cbv zeta. unfold get_propagate_time. cbn [stprop L]. destruct (stprop s) as [t0|]; [|reflexivity]. cbn [option_map of_opt bind imu_later i_t]. rewrite diff_later.
  step_same. step_same. change (body_rates (ip_later d ip) (imu_later d m) a a0) with (body_rates ip m a a0). destruct (body_rates ip m a a0) as [w ac].
  step_same. step_same. step_same. step_same. step_same. step_same. step_same. step_same. reflexivity.
Qed.
Lemma Propagate_later d ip s : Propagate (ip_later d ip) (L d s) = rmap (fun '(b, ip, s) => (b, ip_later d ip, L d s)) (Propagate ip s).
Proof.
  unfold Propagate. cbn [ip_queue ip_later]. destruct (ip_queue ip) as [|x q]; [reflexivity|]. cbn [map ip_prev ip_later]. destruct (ip_prev ip) as [m|]; [|reflexivity]. cbn [of_opt option_map bind].
  change (set_prev (set_queue (ip_later d ip) (map (imu_later d) q)) (imu_later d x)) with (ip_later d (set_prev (set_queue ip q) x)).
  rewrite propagate_later. destruct (propagate_with _ m s); reflexivity.
Qed.
Ltac setter := intros; match goal with |- ?f _ _ _ = _ => unfold f | |- ?f _ _ = _ => unfold f end; cbn [sX sP sTheta sQc L]; match goal with |- bind ?x _ = _ => destruct x end; reflexivity.
Lemma rot_later d s x : set_rotation (L d s) x = rmap (L d) (set_rotation s x). Proof. setter. Qed.
Lemma vel_set_later d s x : set_velocity (L d s) x = rmap (L d) (set_velocity s x). Proof. setter. Qed.
Lemma pos_later d s x : set_position (L d s) x = rmap (L d) (set_position s x). Proof. setter. Qed.
Lemma bg_later d s x : set_gyroscope_bias (L d s) x = rmap (L d) (set_gyroscope_bias s x). Proof. setter. Qed.
Lemma ba_later d s x : set_accelerometer_bias (L d s) x = rmap (L d) (set_accelerometer_bias s x). Proof. setter. Qed.
Lemma cov3_later d s i x : set_cov3 (L d s) i x = rmap (L d) (set_cov3 s i x). Proof. setter. Qed.
Lemma bgc_later d s x : set_gyroscope_bias_covariance (L d s) x = rmap (L d) (set_gyroscope_bias_covariance s x). Proof. intros; apply cov3_later. Qed.
Lemma bac_later d s x : set_accelerometer_bias_covariance (L d s) x = rmap (L d) (set_accelerometer_bias_covariance s x). Proof. intros; apply cov3_later. Qed.
Lemma rotc_later d s x : set_rotation_covariance (L d s) x = rmap (L d) (set_rotation_covariance s x). Proof. intros; apply cov3_later. Qed.
Lemma velc_later d s x : set_velocity_covariance (L d s) x = rmap (L d) (set_velocity_covariance s x). Proof. intros; apply cov3_later. Qed.
Lemma posc_later d s x : set_position_covariance (L d s) x = rmap (L d) (set_position_covariance s x). Proof. intros; apply cov3_later. Qed.
Lemma initial_later d ip s : set_initial_state (ip_later d ip) (L d s) = rmap (fun '(b, ip, s) => (b, ip_later d ip, L d s)) (set_initial_state ip s).
Proof.
  unfold set_initial_state. cbn [ip_queue ip_later]. destruct (ip_queue ip) as [|x q]; [reflexivity|]. cbn [map]. cbv zeta. cbn [ip_use_ori ip_bg0 ip_ba0 ip_enable ip_gyro_bias_cov ip_accel_bias_cov ip_later imu_later i_w i_t i_q].
  set (R0 := if ip_use_ori ip then _ else _). clearbody R0.
  rewrite rot_later. destruct (set_rotation s R0) as [s1|]; [|reflexivity]. cbn [rmap bind].
  rewrite pos_later. destruct (set_position s1 vzero) as [s2|]; [|reflexivity]. cbn [rmap bind].
  change (set_body_angular_velocity (L d s2) (i_w x)) with (L d (set_body_angular_velocity s2 (i_w x))). rewrite bg_later. destruct (set_gyroscope_bias _ _) as [s3|]; [|reflexivity]. cbn [rmap bind].
  rewrite ba_later. destruct (set_accelerometer_bias s3 _) as [s4|]; [|reflexivity]. cbn [rmap bind].
  change (set_propagate_time (set_time (set_enable_imu_bias_update (L d s4) (ip_enable ip)) (i_t x + d)) (i_t x + d)) with (L d (set_propagate_time (set_time (set_enable_imu_bias_update s4 (ip_enable ip)) (i_t x)) (i_t x))).
  rewrite bgc_later. destruct (set_gyroscope_bias_covariance _ _) as [s5|]; [|reflexivity]. cbn [rmap bind].
  rewrite bac_later. destruct (set_accelerometer_bias_covariance s5 _) as [s6|]; reflexivity.
Qed.
Lemma bias_later d ip : InitImuBias (ip_later d ip) = rmap (ip_later d) (InitImuBias ip).
Proof.
  unfold InitImuBias. cbn [ip_static ip_later ip_vec ip_init_size ip_queue]. destruct (negb (ip_static ip)); [reflexivity|]. destruct (size_lt _ _).
  - destruct (ip_queue ip) as [|m l]; reflexivity.
  - destruct (check _ _); reflexivity.
Qed.

(** ** Velocity correction *)
Lemma CR_later d Z H N s e : CorrectRightInvariant Z H N (L d s) e = rmap (L d) (CorrectRightInvariant Z H N s e).
Proof.
  unfold CorrectRightInvariant. cbv zeta. step_same. step_same. step_same. step_pair. step_same. step_same. step_same. step_same. step_same. step_same. reflexivity.
Qed.
Lemma vel_update_later d c m s : vel_update c (vel_later d m) (L d s) = rmap (L d) (vel_update c m s).
Proof.
  unfold vel_update. cbv zeta. change (set_time (L d s) (vm_t (vel_later d m))) with (L d (set_time s (vm_t m))). step_same. step_same. step_same. step_same. apply CR_later.
Qed.
Definition vc_later d (c : vel_corr) : vel_corr := vc_set_queue c (map (vel_later d) (vc_queue c)).
Lemma vc_upd_later d c m s : vel_update (vc_later d c) m s = vel_update c m s. Proof. reflexivity. Qed.
Lemma vel_Correct_later d c s l : vel_Correct (vc_later d c) (L d s) (map (map (vel_later d)) l) = rmap (fun '(b, c, s) => (b, vc_later d c, L d s)) (vel_Correct c s l).
Proof.
  unfold vel_Correct. cbn [vc_later vc_queue vc_set_queue]. rewrite hd_map, tl_map, <- map_app, concat_maps. destruct (vc_queue c ++ hd_batch l) as [|m q]; cbn [map].
  - reflexivity.
  - unfold get_propagate_time. cbn [stprop L]. destruct (stprop s) as [tp|]; [|reflexivity]. cbn [option_map of_opt bind vel_later vm_t]. rewrite past_later. destruct (not_past tp (vm_t m)).
    + cbn [rmap]. unfold vc_later, vc_set_queue. cbn. rewrite map_app. reflexivity.
    + change (vc_thr (vc_later d c)) with (vc_thr c). rewrite old_later.
      assert ((if too_old (vc_thr c) tp (vm_t m) then drain (fun m0 => too_old (vc_thr c) (tp + d) (vm_t m0)) (map (vel_later d) q) (map (map (vel_later d)) (tl_batch l)) else (Some (vel_later d m), map (vel_later d) q, map (map (vel_later d)) (tl_batch l)))
        = let '(r, q', bs) := (if too_old (vc_thr c) tp (vm_t m) then drain (fun m0 => too_old (vc_thr c) tp (vm_t m0)) q (tl_batch l) else (Some m, q, tl_batch l)) in (option_map (vel_later d) r, map (vel_later d) q', map (map (vel_later d)) bs)) as ->.
      { destruct (too_old (vc_thr c) tp (vm_t m)); [|reflexivity]. apply drain_map. intros x. apply old_later. }
      destruct (if too_old (vc_thr c) tp (vm_t m) then _ else _) as [[r q'] bs]. destruct r as [m'|]; cbn [option_map].
      * change (vel_update (vc_later d c) (vel_later d m') (L d s)) with (vel_update c (vel_later d m') (L d s)). rewrite vel_update_later. destruct (vel_update c m' s) as [s'|]; [|reflexivity]. cbn [rmap bind]. unfold vc_later, vc_set_queue. cbn. rewrite map_app, concat_maps. reflexivity.
      * cbn [rmap]. unfold vc_later, vc_set_queue. cbn. rewrite map_app, concat_maps. reflexivity.
Qed.
Lemma vel_initialize_later d c s a : vel_initialize (vc_later d c) (L d s) (map (vel_later d) a) = rmap (fun '(b, c, s) => (b, vc_later d c, L d s)) (vel_initialize c s a).
Proof.
  unfold vel_initialize. cbn [vc_later vc_queue vc_set_queue]. rewrite <- map_app. destruct (vc_queue c ++ a) as [|x q]; [reflexivity|]. cbn [map]. cbv zeta. change (vel_later d x :: map (vel_later d) q) with (map (vel_later d) (x :: q)). rewrite last_map.
  step_same. rewrite vel_set_later. change (vm_v (vel_later d (last (x :: q) x))) with (vm_v (last (x :: q) x)). destruct (set_velocity s _); reflexivity.
Qed.
Lemma vel_spin_later d : forall l c s, vel_spin (vc_later d c) (L d s) (map (map (vel_later d)) l) = rmap (fun '(c, s) => (vc_later d c, L d s)) (vel_spin c s l).
Proof.
  induction l as [|b bs IH]; intros c s; cbn [map vel_spin].
  - change (hd_batch (@nil (list vmeas))) with (map (vel_later d) (@nil vmeas)). rewrite vel_initialize_later. cbn [hd_batch map]. destruct (vel_initialize c s []) as [[[b c1] s1]|]; [|reflexivity]. cbn [rmap bind]. destruct b; [|reflexivity]. cbn. unfold vc_later, vc_set_queue. cbn. rewrite !app_nil_r. reflexivity.
  - cbn [hd_batch tl_batch]. rewrite vel_initialize_later. destruct (vel_initialize c s b) as [[[b0 c1] s1]|]; [|reflexivity]. cbn [rmap bind]. destruct b0; [|apply IH]. cbn [rmap]. rewrite concat_maps. unfold vc_later, vc_set_queue. cbn. rewrite map_app. reflexivity.
Qed.

(** ** Legged correction *)
Definition lc_later d (c : leg_corr) : leg_corr := lc_set_queue c (map (leg_later d) (lc_queue c)).
Lemma scan_later d c (h : heap) s : forall legs id acc, scan_legs c h (L d s) id legs acc = scan_legs c h s id legs acc.
Proof.
  induction legs as [|o legs IH]; intros id acc; cbn [scan_legs]; [reflexivity|]. destruct acc as [[HNZ rem] new].
  destruct (lo_contact o), (lc_map c id) as [p|] eqn:E; cbn [bind]; try apply IH.
  destruct (heap_get h (Some p)) as [z|]; cbn [bind]; [|reflexivity]. change (stack_leg (L d s) z (leg_cov c o) (lo_pos o) HNZ) with (stack_leg s z (leg_cov c o) (lo_pos o) HNZ).
  destruct (stack_leg s z (leg_cov c o) (lo_pos o) HNZ); cbn [bind]; [|reflexivity]. apply IH.
Qed.
Lemma del_later d (h : heap) s i : del_aug_state h (L d s) i = rmap (fun '(h, s) => (h, L d s)) (del_aug_state h s i).
Proof.
  unfold del_aug_state. cbv zeta. step_pair. step_same. step_same. unfold del_aug_cov, del_aug_noise_cov. cbn [sP sQc set_cmap set_X L].
  destruct (cov_index i) as [n|]; cbn [bind]; [|reflexivity]. destruct (RemoveRowAndColumn (sP s) n 3); cbn [bind]; [|reflexivity].
  cbn [sQc set_P set_cmap set_X L]. destruct (RemoveRowAndColumn (sQc s) n 3); reflexivity.
Qed.
Lemma removes_later d : forall l (h : heap) s m, foldM remove_leg (h, L d s, m) l = rmap (fun '(h, s, m) => (h, L d s, m)) (foldM remove_leg (h, s, m) l).
Proof.
  induction l as [|id l IH]; intros h s m; cbn [foldM]; [reflexivity|]. unfold remove_leg at 1 3. destruct (heap_get h (m id)) as [z|]; cbn [bind]; [|reflexivity].
  destruct (idx z) as [i|]; cbn [bind]; [|reflexivity]. rewrite del_later. destruct (del_aug_state h s i) as [[h1 s1]|]; cbn [rmap bind]; [|reflexivity]. apply IH.
Qed.
Lemma add_later d c (h : heap) s m P n : add_leg c (h, L d s, m, P) n = rmap (fun '(h, s, m, P) => (h, L d s, m, P)) (add_leg c (h, s, m, P) n).
Proof.
  destruct n as [[id f] cov]. unfold add_leg. cbv zeta. step_same. step_same. step_pair. step_same. step_same. step_same. step_same. step_same.
  change (dimX (L d s)) with (dimX s). destruct (heap_new h (Z.of_nat (dimX s))) as [h1 p]. change (stype (L d s)) with (stype s).
  set (u := match stype s with WorldCentric => _ | BodyCentric => _ end).
  match goal with |- context [add_aug_state s u ?P ?C ?p] => assert (add_aug_state (L d s) u P C p = rmap (fun '(s, i) => (L d s, i)) (add_aug_state s u P C p)) as ->; [unfold add_aug_state; cbv zeta; do 11 step_same; reflexivity|destruct (add_aug_state s u P C p) as [[s1 i]|]; cbn [rmap bind]; [|reflexivity]] end.
  match goal with |- context [heap_set ?a ?b ?c] => destruct (heap_set a b c) end; reflexivity.
Qed.
Lemma adds_later d c : forall l (h : heap) s m P, foldM (add_leg c) (h, L d s, m, P) l = rmap (fun '(h, s, m, P) => (h, L d s, m, P)) (foldM (add_leg c) (h, s, m, P) l).
Proof.
  induction l as [|id l IH]; intros h s m P; cbn [foldM]; [reflexivity|]. rewrite add_later. destruct (add_leg c (h, s, m, P) id) as [[[[h1 s1] m1] P1]|]; cbn [rmap bind]; [|reflexivity]. apply IH.
Qed.
Lemma leg_update_later d c (h : heap) m s : leg_update c h (leg_later d m) (L d s) = rmap (fun '(c, h, s) => (c, h, L d s)) (leg_update c h m s).
Proof.
  unfold leg_update. cbv zeta. change (set_time (L d s) (lm_t (leg_later d m))) with (L d (set_time s (lm_t m))). rewrite scan_later. cbn [lm_legs leg_later].
  set (s0 := set_time s (lm_t m)). destruct (scan_legs c h s0 0 (lm_legs m) _) as [[[[[H N] Z] rem] new]|]; cbn [bind]; [|reflexivity].
  change (stype (L d s0)) with (stype s0).
  assert ((if (0 <? nr Z)%nat then match stype s0 with WorldCentric => CorrectRightInvariant Z H N (L d s0) (lc_err c) | BodyCentric => CorrectLeftInvariant Z H N (L d s0) (lc_err c) end else Ok (L d s0)) =
          rmap (L d) (if (0 <? nr Z)%nat then match stype s0 with WorldCentric => CorrectRightInvariant Z H N s0 (lc_err c) | BodyCentric => CorrectLeftInvariant Z H N s0 (lc_err c) end else Ok s0)) as ->.
  { destruct (0 <? nr Z)%nat; [|reflexivity]. destruct (stype s0); [apply CR_later|].
    unfold CorrectLeftInvariant. cbv zeta. step_same. step_same. step_same. step_pair. step_same. step_same. step_same. step_same. reflexivity. }
  match goal with |- bind (rmap _ ?x) _ = _ => destruct x as [s1|] end; cbn [rmap bind]; [|reflexivity].
  rewrite removes_later. destruct (foldM remove_leg (h, s1, lc_map c) rem) as [[[h2 s2] m2]|]; cbn [rmap bind]; [|reflexivity].
  change (sP (L d s2)) with (sP s2). rewrite adds_later. destruct (foldM (add_leg c) (h2, s2, m2, sP s2) new) as [[[[h3 s3] m3] P3]|]; reflexivity.
Qed.
(** the queue is not read by the update *)
Lemma leg_update_queue c q (h : heap) m s : leg_update (lc_set_queue c q) h m s = rmap (fun '(c, h, s) => (lc_set_queue c q, h, s)) (leg_update c h m s).
Proof.
  unfold leg_update. cbv zeta. assert (forall h s legs id acc, scan_legs (lc_set_queue c q) h s id legs acc = scan_legs c h s id legs acc) as ->.
  { clear. intros h s. induction legs as [|o legs IH]; intros id acc; cbn [scan_legs]; [reflexivity|]. destruct acc as [[HNZ rem] new]. change (lc_map (lc_set_queue c q)) with (lc_map c). change (leg_cov (lc_set_queue c q) o) with (leg_cov c o).
    destruct (lo_contact o), (lc_map c id) as [p|] eqn:E; cbn [bind]; try apply IH. destruct (heap_get h (Some p)) as [z|]; cbn [bind]; [|reflexivity]. destruct (stack_leg s z (leg_cov c o) (lo_pos o) HNZ); cbn [bind]; [|reflexivity]. apply IH. }
  destruct (scan_legs c h _ 0 (lm_legs m) _) as [[[[[H N] Z] rem] new]|]; cbn [bind]; [|reflexivity]. step_same. step_pair.
  destruct p as [h2 s2]. change (foldM (add_leg (lc_set_queue c q)) (h2, s2, o, sP s2) new) with (foldM (add_leg c) (h2, s2, o, sP s2) new). destruct (foldM (add_leg c) (h2, s2, o, sP s2) new) as [[[[h3 s3] m3] P3]|]; reflexivity.
Qed.
Lemma leg_Correct_later d c (h : heap) s l : leg_Correct (lc_later d c) h (L d s) (map (map (leg_later d)) l) = rmap (fun '(b, c, h, s) => (b, lc_later d c, h, L d s)) (leg_Correct c h s l).
Proof.
  unfold leg_Correct. cbn [lc_later lc_queue lc_set_queue]. rewrite hd_map, tl_map, <- map_app, concat_maps. destruct (lc_queue c ++ hd_batch l) as [|m q]; cbn [map].
  - reflexivity.
  - unfold get_propagate_time. cbn [stprop L]. destruct (stprop s) as [tp|]; [|reflexivity]. cbn [option_map of_opt bind leg_later lm_t]. cbv zeta.
    change (lc_thr (lc_later d c)) with (lc_thr c). rewrite old_later.
    assert ((if too_old (lc_thr c) tp (lm_t m) then drain (fun m0 => too_old (lc_thr c) (tp + d) (lm_t m0)) (map (leg_later d) q) (map (map (leg_later d)) (tl_batch l)) else (Some (leg_later d m), map (leg_later d) q, map (map (leg_later d)) (tl_batch l)))
        = let '(r, q', bs) := (if too_old (lc_thr c) tp (lm_t m) then drain (fun m0 => too_old (lc_thr c) tp (lm_t m0)) q (tl_batch l) else (Some m, q, tl_batch l)) in (option_map (leg_later d) r, map (leg_later d) q', map (map (leg_later d)) bs)) as ->.
    { destruct (too_old (lc_thr c) tp (lm_t m)); [|reflexivity]. apply drain_map. intros x. apply old_later. }
    destruct (if too_old (lc_thr c) tp (lm_t m) then _ else _) as [[r q'] bs]. rewrite concat_maps, <- map_app. destruct r as [m'|]; cbn [option_map].
    + change (lc_set_queue (lc_later d c) (map (leg_later d) (q' ++ concat bs))) with (lc_set_queue c (map (leg_later d) (q' ++ concat bs))).
      rewrite (leg_update_queue c (map (leg_later d) (q' ++ concat bs))), (leg_update_queue c (q' ++ concat bs)), leg_update_later. destruct (leg_update c h m' s) as [[[c1 h1] s1]|]; reflexivity.
    + reflexivity.
Qed.
Lemma leg_initialize_later d c s a : leg_initialize (lc_later d c) (L d s) (map (leg_later d) a) = rmap (fun '(b, c, s) => (b, lc_later d c, L d s)) (leg_initialize c s a).
Proof.
  unfold leg_initialize. cbn [lc_later lc_queue lc_set_queue]. rewrite <- map_app. destruct (lc_queue c ++ a) as [|x q]; [reflexivity|]. cbn [map]. cbv zeta. change (leg_later d x :: map (leg_later d) q) with (map (leg_later d) (x :: q)). rewrite last_map.
  step_same. step_same. rewrite vel_set_later. change (lm_initv (leg_later d (last (x :: q) x))) with (lm_initv (last (x :: q) x)). destruct (set_velocity s _); reflexivity.
Qed.
Lemma leg_spin_later d : forall l c s, leg_spin (lc_later d c) (L d s) (map (map (leg_later d)) l) = rmap (fun '(c, s) => (lc_later d c, L d s)) (leg_spin c s l).
Proof.
  induction l as [|b bs IH]; intros c s; cbn [map leg_spin].
  - change (hd_batch (@nil (list lmeas))) with (map (leg_later d) (@nil lmeas)). rewrite leg_initialize_later. cbn [hd_batch map]. destruct (leg_initialize c s []) as [[[b c1] s1]|]; [|reflexivity]. cbn [rmap bind]. destruct b; [|reflexivity]. cbn. unfold lc_later, lc_set_queue. cbn. rewrite !app_nil_r. reflexivity.
  - cbn [hd_batch tl_batch]. rewrite leg_initialize_later. destruct (leg_initialize c s b) as [[[b0 c1] s1]|]; [|reflexivity]. cbn [rmap bind]. destruct b0; [|apply IH]. cbn [rmap]. rewrite concat_maps. unfold lc_later, lc_set_queue. cbn. rewrite map_app. reflexivity.
Qed.

(** ** All corrections *)
Definition corr_later d (c : corr_obj) : corr_obj := match c with CVel c => CVel (vc_later d c) | CLeg c => CLeg (lc_later d c) end.
Lemma hd_arr_later d l : hd_arr (map (arr_later d) l) = arr_later d (hd_arr l). Proof. destruct l; reflexivity. Qed.
Lemma tl_arr_later d l : tl_arr (map (arr_later d) l) = map (arr_later d) (tl_arr l). Proof. destruct l; reflexivity. Qed.
Lemma correct_all_later d : forall cs (h : heap) s l, correct_all (map (corr_later d) cs) h (L d s) (map (arr_later d) l) = rmap (fun '(b, cs, h, s) => (b, map (corr_later d) cs, h, L d s)) (correct_all cs h s l).
Proof.
  induction cs as [|c cs IH]; intros h s l; cbn [map correct_all]; [reflexivity|]. rewrite hd_arr_later, tl_arr_later.
  assert (corr_Correct (corr_later d c) h (L d s) (arr_later d (hd_arr l)) = rmap (fun '(b, c, h, s) => (b, corr_later d c, h, L d s)) (corr_Correct c h s (hd_arr l))) as ->.
  { destruct c as [c|c]; cbn [corr_later corr_Correct arr_later a_vel a_leg].
    - rewrite vel_Correct_later. destruct (vel_Correct c s _) as [[[b c1] s1]|]; reflexivity.
    - rewrite leg_Correct_later. destruct (leg_Correct c h s _) as [[[[b c1] h1] s1]|]; reflexivity. }
  destruct (corr_Correct c h s (hd_arr l)) as [[[[b c1] h1] s1]|]; cbn [rmap bind]; [|reflexivity]. rewrite IH.
  destruct (correct_all cs h1 s1 (tl_arr l)) as [[[[b2 cs2] h2] s2]|]; reflexivity.
Qed.
Lemma spin_all_later d : forall cs s l, spin_all (map (corr_later d) cs) (L d s) (map (arr_later d) l) = rmap (fun '(cs, s) => (map (corr_later d) cs, L d s)) (spin_all cs s l).
Proof.
  induction cs as [|c cs IH]; intros s l; cbn [map spin_all]; [reflexivity|]. rewrite hd_arr_later, tl_arr_later.
  assert (corr_spin (corr_later d c) (L d s) (arr_later d (hd_arr l)) = rmap (fun '(c, s) => (corr_later d c, L d s)) (corr_spin c s (hd_arr l))) as ->.
  { destruct c as [c|c]; cbn [corr_later corr_spin arr_later a_vel a_leg].
    - rewrite vel_spin_later. destruct (vel_spin c s _) as [[c1 s1]|]; reflexivity.
    - rewrite leg_spin_later. destruct (leg_spin c s _) as [[c1 s1]|]; reflexivity. }
  destruct (corr_spin c s (hd_arr l)) as [[c1 s1]|]; cbn [rmap bind]; [|reflexivity]. rewrite IH. destruct (spin_all cs s1 (tl_arr l)) as [[cs2 s2]|]; reflexivity.
Qed.
Lemma push_later d c v l : push_corr (corr_later d c) (map (vel_later d) v) (map (leg_later d) l) = corr_later d (push_corr c v l).
Proof. destruct c as [c|c]; cbn [corr_later push_corr vc_later lc_later vc_queue lc_queue vc_set_queue lc_set_queue]; rewrite <- map_app; reflexivity. Qed.
Lemma deliver_later d : forall cs l, deliver_all (map (corr_later d) cs) (map (arr_later d) l) = map (corr_later d) (deliver_all cs l).
Proof. induction cs as [|c cs IH]; intros l; cbn [map deliver_all]; [reflexivity|]. rewrite hd_arr_later, tl_arr_later, IH. cbn [arr_later a_vel a_leg]. rewrite !concat_maps, push_later. reflexivity. Qed.
Lemma upd_later d v l : forall cs i, upd_nth (map (corr_later d) cs) i (fun c => push_corr c (map (vel_later d) v) (map (leg_later d) l)) = map (corr_later d) (upd_nth cs i (fun c => push_corr c v l)).
Proof. induction cs as [|c cs IH]; intros [|i]; cbn [map upd_nth]; rewrite ?push_later, ?IH; reflexivity. Qed.
