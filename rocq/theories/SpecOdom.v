(** Specification vocabulary for the wheel odometry (C39). *)
From Coq Require Import Reals List.
From Verif Require Import Res Vec3 Mat Spec LieGroup VelCorr ImuFilter Imu Quat WheelOdom.
Import ListNotations.
Local Open Scope R_scope.

(** Dead reckoning of a list of (velocity, rate) samples: the first sample only starts the
    clock; each later one is held over the interval since the sample before it.
    Time, orientation, world velocity, position. *)
Inductive dead_reckoning : list (vmeas * avmeas) -> R -> M3 -> V3 -> V3 -> Prop :=
| DR_first m a : dead_reckoning [(m, a)] (vm_t m) mid vzero vzero
| DR_next l t A v p m a E : dead_reckoning l t A v p -> Exp_SO3 ((vm_t m - t) *s av_w a) = Ok E ->
    dead_reckoning (l ++ [(m, a)]) (vm_t m) (A *m E) (A *v vm_v m) (p +v (vm_t m - t) *s (A *v vm_v m)).
(** what was pushed *)
Definition pushed_v (l : list wop) : list vmeas := flat_map (fun x => match x with WVel m => [m] | _ => [] end) l.
Definition pushed_a (l : list wop) : list avmeas := flat_map (fun x => match x with WAng a => [a] | _ => [] end) l.
(** consecutive elements at least d apart *)
Fixpoint apart (d : R) (ts : list R) : Prop := match ts with [] => True | [_] => True | x :: ((y :: _) as r) => d <= y - x /\ apart d r end.

(** which of the times ts are logged, the last line before them being at [last]: at least
    1/rate after the line before; none with rate 0 *)
Fixpoint log_times (rate last : R) (ts : list R) : list R :=
  match ts with
  | [] => []
  | t :: ts => if Req_EM_T rate 0 then [] else if Rle_dec (1 / rate) (t - last) then t :: log_times rate t ts else log_times rate last ts
  end.

(** a logged line: time, position, orientation *)
Definition ltime (x : R * V3 * quat) : R := fst (fst x).
(** the line is the dead-reckoned pose after some initial part of the samples *)
Definition line_ok (ps : list (vmeas * avmeas)) (x : R * V3 * quat) : Prop :=
  exists pre post A v, ps = pre ++ post /\ dead_reckoning pre (ltime x) A v (snd (fst x)) /\ snd x = quat_of_mat A.
