(** Proofs: the quaternion of a rotation matrix is a unit quaternion for that rotation. *)
From Coq Require Import Reals ZArith List Bool Lra Lia.
From Verif Require Import Res Vec3 Spec LieSO3 Imu SpecProp Quat.
Local Open Scope R_scope.

(** the relations between the entries of a rotation matrix *)
Definition cofactor (A : M3) : M3 := mkM
  (m11 A * m22 A - m12 A * m21 A) (m12 A * m20 A - m10 A * m22 A) (m10 A * m21 A - m11 A * m20 A)
  (m02 A * m21 A - m01 A * m22 A) (m00 A * m22 A - m02 A * m20 A) (m01 A * m20 A - m00 A * m21 A)
  (m01 A * m12 A - m02 A * m11 A) (m02 A * m10 A - m00 A * m12 A) (m00 A * m11 A - m01 A * m10 A).
Lemma cofactor_SO3 A : SO3 A -> cofactor A = A.
Proof.
  intros [H D]. assert (mtr (cofactor A) *m A = mid) as E.
  { transitivity (det3 A *ms mid); [|rewrite D; ring3]. unfold cofactor. apply M3_eq; u3; ring. }
  assert (A *m mtr A = mid) as E2 by (apply SO3_r; split; auto).
  assert (mtr (cofactor A) = mtr A) as E3.
  { transitivity (mtr (cofactor A) *m A *m mtr A); [|rewrite E; ring3].
    transitivity (mtr (cofactor A) *m (A *m mtr A)); [rewrite E2; ring3|]. ring3. }
  transitivity (mtr (mtr (cofactor A))); [reflexivity|]. rewrite E3. destruct A; reflexivity.
Qed.
Record relations (A : M3) : Prop := {
  rel_r0 : m00 A * m00 A + m01 A * m01 A + m02 A * m02 A = 1;
  rel_r1 : m10 A * m10 A + m11 A * m11 A + m12 A * m12 A = 1;
  rel_r2 : m20 A * m20 A + m21 A * m21 A + m22 A * m22 A = 1;
  rel_r01 : m00 A * m10 A + m01 A * m11 A + m02 A * m12 A = 0;
  rel_r02 : m00 A * m20 A + m01 A * m21 A + m02 A * m22 A = 0;
  rel_r12 : m10 A * m20 A + m11 A * m21 A + m12 A * m22 A = 0;
  rel_c0 : m00 A * m00 A + m10 A * m10 A + m20 A * m20 A = 1;
  rel_c1 : m01 A * m01 A + m11 A * m11 A + m21 A * m21 A = 1;
  rel_c2 : m02 A * m02 A + m12 A * m12 A + m22 A * m22 A = 1;
  rel_c01 : m00 A * m01 A + m10 A * m11 A + m20 A * m21 A = 0;
  rel_c02 : m00 A * m02 A + m10 A * m12 A + m20 A * m22 A = 0;
  rel_c12 : m01 A * m02 A + m11 A * m12 A + m21 A * m22 A = 0 }.
Lemma SO3_relations A : SO3 A -> relations A.
Proof.
  intros S. pose proof S as [H D]. assert (A *m mtr A = mid) as E2 by (apply SO3_r; auto).
  split.
  - exact (f_equal m00 E2). - exact (f_equal m11 E2). - exact (f_equal m22 E2).
  - exact (f_equal m01 E2). - exact (f_equal m02 E2). - exact (f_equal m12 E2).
  - exact (f_equal m00 H). - exact (f_equal m11 H). - exact (f_equal m22 H).
  - exact (f_equal m01 H). - exact (f_equal m02 H). - exact (f_equal m12 H).
Qed.

(** products of the halved, normalised components *)
Lemma q_sq s T x X : 0 < s -> s * s = T -> x * x = T * X -> (x * (1 / 2 / s)) * (x * (1 / 2 / s)) = X / 4.
Proof.
  intros Hs E H. replace (x * (1 / 2 / s) * (x * (1 / 2 / s))) with (x * x / (4 * (s * s))) by (field; lra).
  rewrite H, E. field. rewrite <- E. nra.
Qed.
Lemma q_pr s T x y z : 0 < s -> s * s = T -> x * y = T * z -> (x * (1 / 2 / s)) * (y * (1 / 2 / s)) = z / 4.
Proof.
  intros Hs E H. replace (x * (1 / 2 / s) * (y * (1 / 2 / s))) with (x * y / (4 * (s * s))) by (field; lra).
  rewrite H, E. field. rewrite <- E. nra.
Qed.
Lemma q_wx s x : 0 < s -> (1 / 2 * s) * (x * (1 / 2 / s)) = x / 4.
Proof. intros. field. lra. Qed.
Lemma q_ww s T : s * s = T -> (1 / 2 * s) * (1 / 2 * s) = T / 4.
Proof. intros <-. field. Qed.

Lemma quat_of_products q M :
  qw q * qw q = (1 + m00 M + m11 M + m22 M) / 4 -> qx q * qx q = (1 + m00 M - m11 M - m22 M) / 4 ->
  qy q * qy q = (1 - m00 M + m11 M - m22 M) / 4 -> qz q * qz q = (1 - m00 M - m11 M + m22 M) / 4 ->
  qw q * qx q = (m21 M - m12 M) / 4 -> qw q * qy q = (m02 M - m20 M) / 4 -> qw q * qz q = (m10 M - m01 M) / 4 ->
  qx q * qy q = (m01 M + m10 M) / 4 -> qx q * qz q = (m02 M + m20 M) / 4 -> qy q * qz q = (m12 M + m21 M) / 4 ->
  qnorm2 q = 1 /\ toRotationMatrix q = M.
Proof.
  intros H1 H2 H3 H4 H5 H6 H7 H8 H9 H10. split.
  - unfold qnorm2. lra.
  - unfold toRotationMatrix. apply M3_eq; cbn [m00 m01 m02 m10 m11 m12 m20 m21 m22]; lra.
Qed.

Lemma thm_quat_of_mat M : SO3 M -> qnorm2 (quat_of_mat M) = 1 /\ toRotationMatrix (quat_of_mat M) = M.
Proof.
  intros S. pose proof (SO3_relations M S) as [r0 r1 r2 r01 r02 r12 c0 c1 c2 c01 c02 c12]. pose proof (cofactor_SO3 M S) as CF.
  pose proof (f_equal m00 CF) as k00. pose proof (f_equal m01 CF) as k01. pose proof (f_equal m02 CF) as k02.
  pose proof (f_equal m10 CF) as k10. pose proof (f_equal m11 CF) as k11. pose proof (f_equal m12 CF) as k12.
  pose proof (f_equal m20 CF) as k20. pose proof (f_equal m21 CF) as k21. pose proof (f_equal m22 CF) as k22. clear CF S.
  destruct M as [a b c d e f g h i]. cbn [cofactor m00 m01 m02 m10 m11 m12 m20 m21 m22] in *.
  assert ((h - f) * (h - f) = (1 + a + e + i) * (1 + a - e - i)) as pp by lra.
  assert ((c - g) * (c - g) = (1 + a + e + i) * (1 - a + e - i)) as qq by lra.
  assert ((d - b) * (d - b) = (1 + a + e + i) * (1 - a - e + i)) as rr by lra.
  assert ((b + d) * (b + d) = (1 + a - e - i) * (1 - a + e - i)) as uu by lra.
  assert ((c + g) * (c + g) = (1 + a - e - i) * (1 - a - e + i)) as vv by lra.
  assert ((f + h) * (f + h) = (1 - a + e - i) * (1 - a - e + i)) as nn by lra.
  assert ((h - f) * (c - g) = (1 + a + e + i) * (b + d)) as pq by lra.
  assert ((h - f) * (d - b) = (1 + a + e + i) * (c + g)) as pr by lra.
  assert ((c - g) * (d - b) = (1 + a + e + i) * (f + h)) as qr by lra.
  assert ((h - f) * (b + d) = (1 + a - e - i) * (c - g)) as pu by lra.
  assert ((h - f) * (c + g) = (1 + a - e - i) * (d - b)) as pv by lra.
  assert ((b + d) * (c + g) = (1 + a - e - i) * (f + h)) as uv by lra.
  assert ((c - g) * (b + d) = (1 - a + e - i) * (h - f)) as qu by lra.
  assert ((c - g) * (f + h) = (1 - a + e - i) * (d - b)) as qn by lra.
  assert ((b + d) * (f + h) = (1 - a + e - i) * (c + g)) as un by lra.
  assert ((d - b) * (c + g) = (1 - a - e + i) * (h - f)) as rv by lra.
  assert ((d - b) * (f + h) = (1 - a - e + i) * (c - g)) as rn by lra.
  assert ((c + g) * (f + h) = (1 - a - e + i) * (b + d)) as vn by lra.
  clear r0 r1 r2 r01 r02 r12 c0 c1 c2 c01 c02 c12 k00 k01 k02 k10 k11 k12 k20 k21 k22.
  unfold quat_of_mat, quat_branch. cbn [mget m00 m01 m02 m10 m11 m12 m20 m21 m22].
  destruct (Rlt_dec 0 (a + e + i)) as [HT|HT].
  { assert (0 < a + e + i + 1) as HP by lra. set (s := sqrt (a + e + i + 1)).
    assert (0 < s) as Hs by (apply sqrt_lt_R0; exact HP). assert (s * s = 1 + a + e + i) as Es by (unfold s; rewrite sqrt_sqrt; lra).
    apply quat_of_products; cbn [qw qx qy qz m00 m01 m02 m10 m11 m12 m20 m21 m22].
    - apply q_ww; lra. - eapply q_sq; eauto. - eapply q_sq; eauto. - eapply q_sq; eauto.
    - apply q_wx; auto. - apply q_wx; auto. - apply q_wx; auto.
    - eapply q_pr; eauto. - eapply q_pr; eauto. - eapply q_pr; eauto. }
  destruct (Rlt_dec a e) as [H1|H1]; cbn [mget m00 m01 m02 m10 m11 m12 m20 m21 m22].
  - destruct (Rlt_dec e i) as [H2|H2].
    + set (s := sqrt (i - a - e + 1)). assert (0 < i - a - e + 1) as HP by lra.
      assert (0 < s) as Hs by (apply sqrt_lt_R0; exact HP). assert (s * s = 1 - a - e + i) as Es by (unfold s; rewrite sqrt_sqrt; lra).
      apply quat_of_products; cbn [qw qx qy qz m00 m01 m02 m10 m11 m12 m20 m21 m22].
      * eapply q_sq; eauto; lra. * eapply q_sq; eauto; lra. * eapply q_sq; eauto; lra. * apply q_ww; lra.
      * eapply q_pr; eauto; lra. * eapply q_pr; eauto; lra. * rewrite Rmult_comm, q_wx by auto; lra.
      * eapply q_pr; eauto; lra. * rewrite Rmult_comm, q_wx by auto; lra. * rewrite Rmult_comm, q_wx by auto; lra.
    + set (s := sqrt (e - i - a + 1)). assert (0 < e - i - a + 1) as HP by lra.
      assert (0 < s) as Hs by (apply sqrt_lt_R0; exact HP). assert (s * s = 1 - a + e - i) as Es by (unfold s; rewrite sqrt_sqrt; lra).
      apply quat_of_products; cbn [qw qx qy qz m00 m01 m02 m10 m11 m12 m20 m21 m22].
      * eapply q_sq; eauto; lra. * eapply q_sq; eauto; lra. * apply q_ww; lra. * eapply q_sq; eauto; lra.
      * eapply q_pr; eauto; lra. * rewrite Rmult_comm, q_wx by auto; lra. * eapply q_pr; eauto; lra.
      * rewrite Rmult_comm, q_wx by auto; lra. * eapply q_pr; eauto; lra. * rewrite q_wx by auto; lra.
  - destruct (Rlt_dec a i) as [H2|H2].
    + set (s := sqrt (i - a - e + 1)). assert (0 < i - a - e + 1) as HP by lra.
      assert (0 < s) as Hs by (apply sqrt_lt_R0; exact HP). assert (s * s = 1 - a - e + i) as Es by (unfold s; rewrite sqrt_sqrt; lra).
      apply quat_of_products; cbn [qw qx qy qz m00 m01 m02 m10 m11 m12 m20 m21 m22].
      * eapply q_sq; eauto; lra. * eapply q_sq; eauto; lra. * eapply q_sq; eauto; lra. * apply q_ww; lra.
      * eapply q_pr; eauto; lra. * eapply q_pr; eauto; lra. * rewrite Rmult_comm, q_wx by auto; lra.
      * eapply q_pr; eauto; lra. * rewrite Rmult_comm, q_wx by auto; lra. * rewrite Rmult_comm, q_wx by auto; lra.
    + set (s := sqrt (a - e - i + 1)). assert (0 < a - e - i + 1) as HP by lra.
      assert (0 < s) as Hs by (apply sqrt_lt_R0; exact HP). assert (s * s = 1 + a - e - i) as Es by (unfold s; rewrite sqrt_sqrt; lra).
      apply quat_of_products; cbn [qw qx qy qz m00 m01 m02 m10 m11 m12 m20 m21 m22].
      * eapply q_sq; eauto; lra. * apply q_ww; lra. * eapply q_sq; eauto; lra. * eapply q_sq; eauto; lra.
      * rewrite Rmult_comm, q_wx by auto; lra. * eapply q_pr; eauto; lra. * eapply q_pr; eauto; lra.
      * rewrite q_wx by auto; lra. * rewrite q_wx by auto; lra. * eapply q_pr; eauto; lra.
Qed.
