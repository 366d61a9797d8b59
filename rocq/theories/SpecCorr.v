(** Specification vocabulary for the sensor corrections, independent of the model's helpers. *)
From Coq Require Import Reals ZArith List Bool Arith Lia.
From Verif Require Import Res Vec3 Mat MatInv Psd Spec LieGroup RobotState Inekf SpecFilter Imu Propagation SpecProp VelCorr LegCorr.
Import ListNotations.
Local Open Scope R_scope.

(** ** Velocity *)
(** older than the propagated time by more than the threshold *)
Definition stale (thr tp t : R) : Prop := t < tp - thr.

(** what applying a body velocity y to s means: the right-invariant update of s with
    innovation R y - v, observing the velocity error only, with noise R cov R^T *)
Definition vel_innovation (s : rstate) (y : V3) : mat := ofV3 (rot (sX s) *v y -v col (sX s) 0).
Definition vel_H (K : nat) : mat := mk 3 (9 + 3 * K) (fun i j => if Nat.eqb j (3 + i) then 1 else 0).
Definition vel_N (s : rstate) (cov : M3) : mat := ofM3 (rot (sX s) *m cov *m mtr (rot (sX s))).
Definition vel_applied (K : nat) (c : vel_corr) (m : vmeas) (s s' : rstate) : Prop :=
  let y := vc_R c *v (vc_scale c *s vm_v m) in
  CorrectRightInvariant (vel_innovation s y) (vel_H K) (vel_N s (vc_cov c)) (set_time s (vm_t m)) (vc_err c) = Ok s'.

(** one object, called with arbitrary states; before and during each call batches of
    samples arrive *)
Record vcall := mkCall { k_state : rstate; k_sched : list (list vmeas) }.
Fixpoint vel_calls (c : vel_corr) (l : list vcall) : res (list (bool * rstate) * vel_corr) :=
  match l with
  | [] => Ok ([], c)
  | k :: l =>
    let* '(b, c, s') := vel_Correct c (k_state k) (k_sched k) in
    let* '(outs, c) := vel_calls c l in
    Ok ((b, s') :: outs, c)
  end.
(** what one call did with the samples: those it dropped, the one it applied *)
Record fate (A : Type) := mkFate { f_dropped : list A; f_used : option A }.
Arguments mkFate {A}. Arguments f_dropped {A}. Arguments f_used {A}.
Definition consumed {A} (f : fate A) : list A := f_dropped f ++ match f_used f with Some m => [m] | None => [] end.
Definition vel_fate_ok (c : vel_corr) (k : vcall) (o : bool * rstate) (f : fate vmeas) : Prop :=
  let s := k_state k in
  (forall m, In m (consumed f) -> exists tp, stprop s = Some tp) /\
  (forall tp, stprop s = Some tp ->
     Forall (fun m => stale (vc_thr c) tp (vm_t m)) (f_dropped f) /\
     (forall m, f_used f = Some m -> ~ stale (vc_thr c) tp (vm_t m))) /\
  match f_used f with
  | None => fst o = false /\ snd o = s
  | Some m => fst o = true /\ forall K, wfp K s -> vel_applied K c m s (snd o)
  end.
Inductive Forall3 {A B C} (P : A -> B -> C -> Prop) : list A -> list B -> list C -> Prop :=
| F3_nil : Forall3 P [] [] []
| F3_cons a b c la lb lc : P a b c -> Forall3 P la lb lc -> Forall3 P (a :: la) (b :: lb) (c :: lc).
(** an object whose settings make sense *)
Definition vel_noise_ok (c : vel_corr) : Prop := pd (ofM3 (vc_cov c)).

(** ** Leg kinematics *)
(** A foot observed by a leg measurement and tracked as contact number ft_k (column
    2 + ft_k of the state: 0 velocity, 1 position, 2.. contacts). *)
Record foot := mkFoot { ft_k : nat; ft_pos : V3; ft_cov : M3 }.
Definition no_foot := mkFoot 0 vzero mzero.
(** stacked innovation, observation matrix and noise of a list of feet: foot i
    contributes R h - (d - p), observing (error of d) - (error of p), noise R cov R^T *)
Definition foot_innovation (X : mat) (f : foot) : V3 := rot X *v ft_pos f -v (col X (2 + ft_k f) -v col X 1).
Definition leg_Z (X : mat) (o : list foot) : mat :=
  mk (3 * length o) 1 (fun i _ => vget (foot_innovation X (nth (i / 3) o no_foot)) (i mod 3)).
Definition leg_H (K : nat) (o : list foot) : mat :=
  mk (3 * length o) (9 + 3 * K) (fun i j =>
    if Nat.eqb j (9 + 3 * ft_k (nth (i / 3) o no_foot) + i mod 3) then 1
    else if Nat.eqb j (6 + i mod 3) then -1 else 0).
Definition leg_N (X : mat) (o : list foot) : mat :=
  mk (3 * length o) (3 * length o) (fun i j =>
    if Nat.eqb (i / 3) (j / 3) then mget (rot X *m ft_cov (nth (i / 3) o no_foot) *m mtr (rot X)) (i mod 3) (j mod 3) else 0).

(** The contact number of a leg, if it is tracked. *)
Definition contact_of (c : leg_corr) (h : heap) (id : nat) : option nat :=
  match lc_map c id with
  | Some a => match nth_error h a with Some z => Some (Z.to_nat z - 5)%nat | None => None end
  | None => None
  end.
(** Bookkeeping: the state has one column per tracked leg and every stored id points
    at its own column; [ids] lists the tracked addresses, oldest first. *)
Record tracks (c : leg_corr) (h : heap) (s : rstate) (ids : list nat) : Prop := {
  tr_wf : wfp (2 + length ids) s;
  tr_cmap : scmap s = repeat None 5 ++ map Some ids;
  tr_nodup : NoDup ids;
  tr_heap : forall k a, nth_error ids k = Some a -> nth_error h a = Some (Z.of_nat (5 + k));
  tr_in : forall id a, lc_map c id = Some a -> In a ids;
  tr_inj : forall i j a, lc_map c i = Some a -> lc_map c j = Some a -> i = j;
  tr_onto : forall a, In a ids -> exists id, lc_map c id = Some a }.
(** The visible consequence: the tracked legs and the contact columns 0 .. n-1 of the
    state are in bijection. *)
Definition one_column_per_leg (c : leg_corr) (h : heap) (s : rstate) : Prop :=
  exists n, wfp (2 + n) s /\
    (forall id, lc_map c id <> None -> exists k, contact_of c h id = Some k /\ (k < n)%nat) /\
    (forall k, (k < n)%nat -> exists! id, contact_of c h id = Some k).
(** which legs are in contact in a measurement *)
Definition in_contact (m : lmeas) (id : nat) : Prop := exists o, nth_error (lm_legs m) id = Some o /\ lo_contact o = true.
Definition leg_noise_ok (c : leg_corr) : Prop := lc_kin_std c <> 0 /\ psd (ofM3 (lc_contact_cov c)).

(** foot position covariance: encoder noise through the Jacobian plus an additive term *)
Definition kin_cov (c : leg_corr) (o : leg_obs) : M3 :=
  (lc_enc_std c ^ 2) *ms (lo_J o *m mtr (lo_J o)) +m (lc_kin_std c ^ 2) *ms mid.
(** the feet of a measurement that are in contact and already tracked, in leg order *)
Fixpoint feet (c : leg_corr) (h : heap) (id : nat) (legs : list leg_obs) : list foot :=
  match legs with
  | [] => []
  | o :: legs =>
    (if lo_contact o then match contact_of c h id with Some k => [mkFoot k (lo_pos o) (kin_cov c o)] | None => [] end else [])
    ++ feet c h (S id) legs
  end.

(** Error coordinates of the state by meaning instead of by position: the 9 core
    coordinates (rotation, velocity, position), 3 per tracked leg, 6 for the biases.  An
    untracked leg has no coordinate: its row is past the end, where the covariance reads 0. *)
Inductive slot := Core (n : nat) | Leg (id a : nat) | BiasC (n : nat).
Definition slot_leg (x : slot) : option nat := match x with Leg id _ => Some id | _ => None end.
Definition row (c : leg_corr) (h : heap) (s : rstate) (x : slot) : nat :=
  match x with
  | Core n => if (n <? 9)%nat then n else nr (sP s)
  | Leg id a => match contact_of c h id with Some k => if (a <? 3)%nat then 9 + 3 * k + a else nr (sP s) | None => nr (sP s) end
  | BiasC n => nr (sP s) - 6 + n
  end.
(** covariance between two error coordinates; position of a tracked foot *)
Definition pcov (c : leg_corr) (h : heap) (s : rstate) (x y : slot) : R := ent (sP s) (row c h s x) (row c h s y).
Definition ppos (c : leg_corr) (h : heap) (s : rstate) (id : nat) : option V3 :=
  option_map (fun k => col (sX s) (2 + k)) (contact_of c h id).
(** Legs in L keep their position and all their (co)variances, and so do the core and bias
    coordinates. *)
Definition carried (L : nat -> Prop) (c : leg_corr) (h : heap) (s : rstate) (c' : leg_corr) (h' : heap) (s' : rstate) : Prop :=
  (forall id, L id -> ppos c' h' s' id = ppos c h s id) /\
  (forall x y, (forall id, slot_leg x = Some id -> L id) -> (forall id, slot_leg y = Some id -> L id) ->
     pcov c' h' s' x y = pcov c h s x y).
(** First-order error of the foot p + R f in terms of the core errors, coordinate a: in
    the right convention the error of p, in the left one the error of p minus f x (error of R). *)
Definition foot_error (e : error_type) (f : V3) (a : nat) (cov : slot -> R) : R :=
  cov (Core (6 + a)) +
  match e with
  | RightInvariant => 0
  | LeftInvariant => mget (skew (vneg f)) a 0 * cov (Core 0) + mget (skew (vneg f)) a 1 * cov (Core 1) + mget (skew (vneg f)) a 2 * cov (Core 2)
  end.
Definition foot_noise (e : error_type) (X : mat) (N : M3) : M3 :=
  match e with RightInvariant => rot X *m N *m mtr (rot X) | LeftInvariant => N end.
(** Leg id has just been added at foot position f with covariance N. *)
Definition touchdown (e : error_type) (c : leg_corr) (h : heap) (s : rstate) (id : nat) (f : V3) (N : M3) : Prop :=
  ppos c h s id = Some (col (sX s) 1 +v rot (sX s) *v f) /\
  (forall a y, (a < 3)%nat -> slot_leg y <> Some id ->
     pcov c h s (Leg id a) y = foot_error e f a (fun x => pcov c h s x y) /\
     pcov c h s y (Leg id a) = foot_error e f a (fun x => pcov c h s y x)) /\
  (forall a b, (a < 3)%nat -> (b < 3)%nat ->
     pcov c h s (Leg id a) (Leg id b) = foot_error e f a (fun x => foot_error e f b (fun y => pcov c h s x y)) + mget (foot_noise e (sX s) N) a b).

(** The update of a leg measurement splits into the Kalman update with the feet already
    tracked and the bookkeeping of lost and new contacts. *)
Definition leg_corrected (K : nat) (c : leg_corr) (h : heap) (m : lmeas) (s s1 : rstate) : Prop :=
  let o := feet c h 0 (lm_legs m) in
  if Nat.eqb (length o) 0 then s1 = set_time s (lm_t m)
  else CorrectRightInvariant (leg_Z (sX s) o) (leg_H K o) (leg_N (sX s) o) (set_time s (lm_t m)) (lc_err c) = Ok s1.
Definition tracked (c : leg_corr) (id : nat) : Prop := lc_map c id <> None.
(** the legs tracked after measurement m has been used *)
Definition tracked_after (c : leg_corr) (m : lmeas) (id : nat) : Prop :=
  match nth_error (lm_legs m) id with Some o => lo_contact o = true | None => tracked c id end.
(** everything one leg measurement does to the bookkeeping: c h s1 before (s1 being the
    state after the Kalman update), c' h' s' after *)
Record leg_booked (c : leg_corr) (h : heap) (m : lmeas) (s1 : rstate) (c' : leg_corr) (h' : heap) (s' : rstate) : Prop := {
  lb_tracked : forall id, tracked c' id <-> tracked_after c m id;
  lb_kept : carried (fun id => tracked c id /\ tracked c' id) c h s1 c' h' s';
  lb_new : forall id o, nth_error (lm_legs m) id = Some o -> lo_contact o = true -> ~ tracked c id ->
    touchdown (lc_err c) c' h' s' id (lo_pos o) (kin_cov c o);
  lb_core : rot (sX s') = rot (sX s1) /\ col (sX s') 0 = col (sX s1) 0 /\ col (sX s') 1 = col (sX s1) 1 /\ sTheta s' = sTheta s1;
  lb_time : st s' = st s1 /\ stprop s' = stprop s1;
  lb_rest : sbav s' = sbav s1 /\ sen s' = sen s1 /\ sslip s' = sslip s1 /\ stype s' = stype s1 }.
(** ** Histories of leg corrections interleaved with propagation and velocity corrections *)
(** the first measurement of a list that is not too old *)
Definition fresh (thr tp : R) (m : lmeas) : bool := if Rle_dec (tp - thr) (lm_t m) then true else false.
Definition first_fresh (thr : R) (tp : option R) (q : list lmeas) : option lmeas :=
  match tp with Some tp => find (fresh thr tp) q | None => None end.
Definition n_legs (n : nat) (q : list lmeas) : Prop := Forall (fun m => length (lm_legs m) = n) q.
(** [leg_reach n c h s last]: a legged correction object, the heap of its column
    ids and the robot state, reachable from a freshly constructed object and a state
    without contacts; [last] is the last measurement the object used. *)
Inductive leg_reach (n : nat) : leg_corr -> heap -> rstate -> option lmeas -> Prop :=
| LR_start q e g h s : n_legs n q -> wfp 2 s -> scmap s = repeat None 5 ->
    leg_reach n (LeggedKinematicsCorrection q e g) h s None
| LR_leg c h s l sched b c' h' s' : leg_reach n c h s l -> n_legs n (concat sched) ->
    leg_Correct c h s sched = Ok (b, c', h', s') ->
    leg_reach n c' h' s' (if b then first_fresh (lc_thr c) (stprop s) (lc_queue c ++ concat sched) else l)
| LR_vel c h s l vc sched b vc' s' : leg_reach n c h s l -> vel_Correct vc s sched = Ok (b, vc', s') -> leg_reach n c h s' l
| LR_prop c h s l ip b ip' s' : leg_reach n c h s l -> Propagate ip s = Ok (b, ip', s') -> leg_reach n c h s' l.
(** what one call did with the measurements *)
Definition leg_fate_ok (c : leg_corr) (h : heap) (s : rstate) (f : fate lmeas) (b : bool) (c' : leg_corr) (h' : heap) (s' : rstate) : Prop :=
  (forall m, In m (consumed f) -> exists tp, stprop s = Some tp) /\
  (forall tp, stprop s = Some tp ->
     Forall (fun m => stale (lc_thr c) tp (lm_t m)) (f_dropped f) /\
     (forall m, f_used f = Some m -> ~ stale (lc_thr c) tp (lm_t m))) /\
  match f_used f with
  | None => b = false /\ s' = s /\ h' = h /\ (forall id, lc_map c' id = lc_map c id)
  | Some m => b = true /\ exists s1, (forall n, wfp n s -> leg_corrected n c h m s s1) /\ leg_booked c h m s1 c' h' s'
  end.
(** the feet reported by m are where the state has them *)
Definition consistent (c : leg_corr) (h : heap) (s : rstate) (m : lmeas) : Prop :=
  forall id o x, nth_error (lm_legs m) id = Some o -> lo_contact o = true -> ppos c h s id = Some x ->
    x = col (sX s) 1 +v rot (sX s) *v lo_pos o.
