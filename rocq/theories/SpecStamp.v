(** Specification vocabulary for stamps (C44). *)
From Coq Require Import ZArith.
From Verif Require Import Ros.
Local Open Scope Z_scope.
(** a normalised stamp: 32 bits of seconds, less than 10^9 nanoseconds *)
Definition stamp_ok (s : stamp) : Prop := 0 <= sec s < 4294967296 /\ 0 <= nsec s < 1000000000.
(** nanoseconds since the epoch *)
Definition ns (s : stamp) : Z := sec s * 1000000000 + nsec s.
