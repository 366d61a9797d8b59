(** Conversion of ROS stamps in binary64 (C44).
    Models the expression [stamp.sec + stamp.nsec / 1000000000.0] used by every callback of
    ROS/drift/src/communication/ros_subscriber.cpp (e.g. 325-327): nsec (uint32) is converted to
    double exactly and divided, sec (uint32) is converted exactly and added; each operation
    rounds to nearest, ties to even. *)
From Coq Require Import Reals ZArith Lia Lra.
From Flocq Require Import Core.
From Verif Require Import Ros.
Local Open Scope R_scope.

(** IEEE 754 binary64, round to nearest even; no overflow occurs for these values *)
Definition rnd64 (x : R) : R := round radix2 (FLT_exp (-1074) 53) ZnearestE x.
Definition double_time (s : stamp) : R := rnd64 (IZR (sec s) + rnd64 (IZR (nsec s) / 1000000000)).
