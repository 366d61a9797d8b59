(** Specification vocabulary of C86. *)
From Verif Require Import Res Vec3 Mat Psd Imu Propagation.

(** configurations that agree on everything that is not a noise strength, with the first never claiming more noise *)
Definition quieter (ip1 ip2 : imu_prop) : Prop :=
  ip_err ip1 = ip_err ip2 /\ ip_Rib ip1 = ip_Rib ip2 /\ ip_t ip1 = ip_t ip2 /\ ip_enable ip1 = ip_enable ip2 /\
  loewner_le (ofM3 (ip_gyro_cov ip1)) (ofM3 (ip_gyro_cov ip2)) /\
  loewner_le (ofM3 (ip_accel_cov ip1)) (ofM3 (ip_accel_cov ip2)) /\
  loewner_le (ofM3 (ip_gyro_bias_cov ip1)) (ofM3 (ip_gyro_bias_cov ip2)) /\
  loewner_le (ofM3 (ip_accel_bias_cov ip1)) (ofM3 (ip_accel_bias_cov ip2)).
