(** Example history for C82. *)
From Coq Require Import Reals ZArith List Bool Arith Lra Lia.
From Verif Require Import Res Vec3 Mat LieGroup RobotState SpecProp Imu Propagation VelCorr LegCorr Quat Kinematics Estimator SpecEst SpecConv SpecTrack Driver SpecDriver Ros SpecRos Node SpecNode NodeThms NodeEx SpecPark Park.
Import ListNotations.
Local Open Scope R_scope.
Definition pk_msg (i : nat) : imu_msg := mkImuMsg (mkStamp (Z.of_nat i) 0) (v3 0.01 0 0.02) (v3 1 2 9) (mkQ 1 0 0 0).
Lemma seq_nondec : forall n i t, t <= INR i -> nondec t (map (fun m => time_of (im_stamp m)) (map pk_msg (seq i n))).
Proof.
  induction n as [|n IH]; intros i t H; [exact I|]. cbn [seq map nondec]. assert (time_of (im_stamp (pk_msg i)) = INR i) as -> by (unfold time_of, pk_msg; cbn [im_stamp sec nsec]; rewrite <- INR_IZR_INZ; lra).
  split; [exact H|]. apply IH. rewrite S_INR. lra.
Qed.
Lemma seq_sorted n : sorted (map (fun m => time_of (im_stamp m)) (map pk_msg (seq 0 n))).
Proof. destruct n; [exact I|]. cbn [seq map sorted]. apply seq_nondec. unfold time_of, pk_msg. cbn. lra. Qed.
Lemma tick_parked l : Forall (parked_event (v3 0.01 0 0.02) (v3 1 2 9)) (flat_map (tick (mkVM 1 vzero)) (map pk_msg l)).
Proof.
  induction l as [|i l IH]; [constructor|]. cbn [map flat_map tick app]. repeat apply Forall_cons; try exact I; [split; reflexivity| |exact IH].
  intros x [<-|[]]. split; [|reflexivity]. split; intros m; cbn; [intros [<-|[]]; reflexivity|contradiction].
Qed.
