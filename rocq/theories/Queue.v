(** Model of how a consumer drains a sensor queue (std::queue + std::mutex) while
    producer threads push.  A schedule is the list of batches that arrive before
    each successive critical section of the consumer; when it is exhausted nothing
    more arrives.  Pure list operations. *)
From Coq Require Import List.
Import ListNotations.

Section Drain.
Context {A : Type} (stale : A -> bool).

(** velocity_correction.cpp:101-113 and legged_kinematics_correction.cpp:72-84: pop
    until a measurement is not stale; None = the queue was found empty.  Second
    result: the queue; third: batches not yet arrived. *)
Fixpoint drain_q (q : list A) : option A * list A :=
  match q with
  | [] => (None, [])
  | m :: q => if stale m then drain_q q else (Some m, q)
  end.
Fixpoint drain (q : list A) (sched : list (list A)) : option A * list A * list (list A) :=
  match sched with
  | [] => let '(r, q) := drain_q q in (r, q, [])
  | b :: bs =>
    match q ++ b with
    | [] => (None, [], bs)
    | m :: q => if stale m then drain q bs else (Some m, q, bs)
    end
  end.
End Drain.

(** the first batch of a schedule *)
Definition hd_batch {A} (sched : list (list A)) : list A := match sched with [] => [] | b :: _ => b end.
Definition tl_batch {A} (sched : list (list A)) : list (list A) := match sched with [] => [] | _ :: bs => bs end.
