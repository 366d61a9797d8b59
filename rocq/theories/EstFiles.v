(** Proofs: log file names (C32). *)
From Coq Require Import Reals ZArith List Bool Arith Lia Lra String Ascii DecimalString DecimalNat.
From Verif Require Import Res RobotState Inekf Imu Propagation VelCorr LegCorr Estimator SpecEst SpecFiles EstHist.
Import ListNotations.
Local Open Scope string_scope.

Lemma app_cancel_l a x y : a ++ x = a ++ y -> x = y.
Proof. induction a; cbn; [auto|]. intros [= H]. auto. Qed.
Lemma app_length_s a b : String.length (a ++ b) = (String.length a + String.length b)%nat.
Proof. induction a; cbn; congruence. Qed.
Lemma app_cancel_r t : forall a b, a ++ t = b ++ t -> a = b.
Proof.
  induction a as [|c a IH]; intros [|d b] H; cbn in *; auto.
  - pose proof (f_equal String.length H) as L. cbn in L. rewrite app_length_s in L. lia.
  - pose proof (f_equal String.length H) as L. cbn in L. rewrite app_length_s in L. lia.
  - injection H as -> H. f_equal. auto.
Qed.
Lemma app_prefix : forall a b x y, a ++ x = b ++ y -> prefix a b = true \/ prefix b a = true.
Proof.
  induction a as [|c a IH]; intros [|d b] x y H; cbn in *; auto. injection H as -> H. destruct (ascii_dec d d); [|congruence]. eapply IH; eauto.
Qed.
Lemma to_uint_nonnil n : Nat.to_uint n <> Decimal.Nil.
Proof. intros H. pose proof (Unsigned.of_to n) as E. rewrite H in E. cbn in E. subst n. discriminate H. Qed.
Lemma to_string_inj a b : to_string a = to_string b -> a = b.
Proof.
  unfold to_string. intros H. apply (f_equal NilZero.uint_of_string) in H. rewrite !NilZero.usu in H by apply to_uint_nonnil.
  injection H as H. apply Unsigned.to_uint_inj. exact H.
Qed.
Lemma to_string_head n s : exists c r, to_string n ++ s = String c r /\ c <> "b"%char.
Proof.
  unfold to_string. pose proof (to_uint_nonnil n) as H. destruct (Nat.to_uint n); try congruence; cbn; eexists _, _; (split; [reflexivity|discriminate]).
Qed.

(** the name of the file of a kind in generation k (0: constructor, k: k-th clear) *)
Inductive kind := KPose | KVel | KBody.
Definition file_name (pose vel : string) (x : nat * kind) : string :=
  match x with
  | (O, KPose) => pose ++ ".txt"
  | (O, KVel) => vel ++ ".txt"
  | (O, KBody) => vel ++ "_body_frame.txt"
  | (S k, KPose) => pose ++ "_" ++ to_string (3 * k + 1) ++ ".txt"
  | (S k, KVel) => vel ++ "_" ++ to_string (3 * k + 2) ++ ".txt"
  | (S k, KBody) => vel ++ "_body_frame_" ++ to_string (3 * k + 3) ++ ".txt"
  end.
Definition triple (pose vel : string) (k : nat) : string * string * string :=
  (file_name pose vel (k, KPose), file_name pose vel (k, KVel), file_name pose vel (k, KBody)).

Lemma step_files e o e' : est_step e o = Ok e' -> e_logger e = true ->
  if is_clear o then exists pose vel, e_names e = (pose, vel) /\ e_count e' = (e_count e + 3)%nat /\
    e_opened e' = (e_opened e ++ [(pose ++ "_" ++ to_string (e_count e + 1) ++ ".txt", vel ++ "_" ++ to_string (e_count e + 2) ++ ".txt", vel ++ "_body_frame_" ++ to_string (e_count e + 3) ++ ".txt")%string])%list
  else e_opened e' = e_opened e /\ e_count e' = e_count e.
Proof.
  intros E HL. destruct o; cbn [est_step is_clear] in *.
  - destruct (e_prop e); [|discriminate]. injection E as <-. auto.
  - injection E as <-. auto.
  - injection E as <-. auto.
  - unfold InitBias in E. destruct (e_prop e) as [ip|]; [|discriminate]. cbn in E. apply bind_inv in E. destruct E as (ip' & _ & E). injection E as <-. auto.
  - unfold InitState in E. destruct (e_prop e) as [ip|]; [|discriminate]. cbn in E. apply bind_inv in E. destruct E as ([[b ip'] s] & _ & E). destruct b; cbn [negb] in E.
    + apply bind_inv in E. destruct E as ([cs s1] & _ & E). repeat (apply bind_inv in E; destruct E as (? & _ & E)). injection E as <-. auto.
    + injection E as <-. auto.
  - unfold RunOnce in E. destruct (e_prop e) as [ip|]; [|discriminate]. cbn in E. apply bind_inv in E. destruct E as ([[b ip'] s] & _ & E).
    apply bind_inv in E. destruct E as ([[[b2 cs] h] s1] & _ & E). destruct (b || b2)%bool; [apply bind_inv in E; destruct E as (s2 & _ & E)|]; injection E as <-; auto.
  - unfold Clear in E. destruct (e_prop e) as [ip|]; [|discriminate]. cbn in E. rewrite HL in E. destruct (e_names e) as [pose vel]. injection E as <-. exists pose, vel. auto.
  - injection E as <-. auto.
  - injection E as <-. unfold LogPop. destruct (e_pending e), (e_logq e); auto.
  - unfold LogWrite in E. destruct (e_pending e) as [x|]; [|injection E as <-; auto]. apply bind_inv in E. destruct E as (t & _ & E).
    destruct (e_logger e && _)%bool; [|injection E as <-; auto]. repeat (apply bind_inv in E; destruct E as (? & _ & E)). injection E as <-. auto.
Qed.
Lemma run_files pose vel : forall os e e' n, est_run e os = Ok e' -> e_logger e = true -> e_names e = (pose, vel) -> e_count e = (3 * n)%nat ->
  e_opened e' = (e_opened e ++ map (triple pose vel) (seq (S n) (n_clear os)))%list.
Proof.
  induction os as [|o os IH]; intros e e' n E HL HN HC; cbn in E.
  - injection E as <-. cbn. rewrite app_nil_r. reflexivity.
  - apply bind_inv in E. destruct E as (e1 & E1 & E). pose proof (step_files _ _ _ E1 HL) as HS.
    destruct (step_fixed _ _ _ E1) as (FX & _). assert (e_logger e1 = true /\ e_names e1 = (pose, vel)) as [HL1 HN1] by (unfold e_fixed in FX; injection FX; intros; split; congruence).
    unfold n_clear. cbn [filter]. destruct (is_clear o).
    + destruct HS as (p & v & G1 & G2 & G3). rewrite HN in G1. injection G1 as <- <-. rewrite HC in *.
      rewrite (IH e1 e' (S n) E HL1 HN1) by lia. cbn [List.length seq map]. rewrite G3, <- app_assoc. reflexivity.
    + destruct HS as [G1 G2]. rewrite (IH e1 e' n E HL1 HN1) by lia. rewrite G1. reflexivity.
Qed.
Lemma thm_opened f os e : est_run (build f) os = Ok e -> k_logger (f_est f) = true ->
  let pose := base (k_pose_file (f_est f)) "inekf_pose" in let vel := base (k_vel_file (f_est f)) "inekf_vel" in
  e_opened e = map (triple pose vel) (seq 0 (S (n_clear os))).
Proof.
  intros E HL pose vel. assert (e_logger (build f) = true /\ e_names (build f) = (pose, vel) /\ e_opened (build f) = [triple pose vel 0] /\ e_count (build f) = 0%nat) as (B1 & B2 & B3 & B4).
  { rewrite EstSafe.build_eq. cbn. rewrite HL. unfold pose, vel, base, dflt. destruct (k_pose_file (f_est f)), (k_vel_file (f_est f)); auto. }
  rewrite (run_files pose vel os _ _ 0 E B1 B2 B4), B3. reflexivity.
Qed.

(** ** injectivity *)
Lemma name_same_kind pose vel k j K : file_name pose vel (k, K) = file_name pose vel (j, K) -> k = j.
Proof.
  destruct K, k as [|k], j as [|j]; cbn [file_name]; intros H; try reflexivity; apply app_cancel_l in H; try (cbn in H; discriminate H);
    (apply app_cancel_l in H; apply app_cancel_r in H; apply to_string_inj in H; f_equal; lia).
Qed.
Lemma name_vel_body pose vel k j : file_name pose vel (k, KVel) <> file_name pose vel (j, KBody).
Proof.
  destruct k as [|k], j as [|j]; cbn [file_name]; intros H; apply app_cancel_l in H; try (cbn in H; discriminate H).
  - change "_body_frame.txt" with ("_" ++ "body_frame.txt") in H. apply app_cancel_l in H. destruct (to_string_head (3 * k + 2) ".txt") as (c & r & E & Hc). rewrite E in H. cbn in H. congruence.
  - change ("_body_frame_" ++ to_string (3 * j + 3) ++ ".txt") with ("_" ++ ("body_frame_" ++ to_string (3 * j + 3) ++ ".txt")) in H. apply app_cancel_l in H.
    destruct (to_string_head (3 * k + 2) ".txt") as (c & r & E & Hc). rewrite E in H. cbn in H. congruence.
Qed.
Lemma name_pose_start pose vel k : exists x, file_name pose vel (k, KPose) = pose ++ x.
Proof. destruct k; cbn; eauto. Qed.
Lemma name_vel_start pose vel k K : K <> KPose -> exists x, file_name pose vel (k, K) = vel ++ x.
Proof. destruct k, K; cbn; try congruence; eauto. Qed.
Lemma name_inj pose vel x y : prefix pose vel = false -> prefix vel pose = false -> file_name pose vel x = file_name pose vel y -> x = y.
Proof.
  intros P1 P2 H. destruct x as [k K], y as [j J].
  assert (forall k j J, J <> KPose -> file_name pose vel (k, KPose) <> file_name pose vel (j, J)) as HX.
  { intros k0 j0 J0 HJ E. destruct (name_pose_start pose vel k0) as [u U]. destruct (name_vel_start pose vel j0 J0 HJ) as [v V]. rewrite U, V in E.
    apply app_prefix in E. destruct E; congruence. }
  destruct K, J; try (apply name_same_kind in H; congruence).
  - exfalso. eapply HX; [|exact H]; discriminate.
  - exfalso. eapply HX; [|exact H]; discriminate.
  - exfalso. symmetry in H. eapply HX; [|exact H]; discriminate.
  - exfalso. eapply name_vel_body; eauto.
  - exfalso. symmetry in H. eapply HX; [|exact H]; discriminate.
  - exfalso. symmetry in H. eapply name_vel_body; eauto.
Qed.
Lemma all_names_triples pose vel ks : all_names (map (triple pose vel) ks) = map (file_name pose vel) (list_prod ks [KPose; KVel; KBody]).
Proof. induction ks as [|k ks IH]; cbn [map all_names flat_map list_prod app]; [reflexivity|]. unfold all_names in IH. rewrite IH. reflexivity. Qed.
Lemma nodup_prod {A B} (a : list A) (b : list B) : NoDup a -> NoDup b -> NoDup (list_prod a b).
Proof.
  intros Ha Hb. induction Ha as [|x a Hx Ha IH]; cbn; [constructor|]. assert (NoDup (map (fun y => (x, y)) b)) as H1.
  { apply FinFun.Injective_map_NoDup; [|exact Hb]. intros u v [= E]. exact E. }
  assert (forall p, In p (map (fun y => (x, y)) b) -> ~ In p (list_prod a b)) as H2.
  { intros p Hp Hq. apply in_map_iff in Hp. destruct Hp as (y & <- & _). apply in_prod_iff in Hq. tauto. }
  revert H1 H2. generalize (map (fun y : B => (x, y)) b). intros l H1 H2. induction H1 as [|p l Hp Hl IHl]; cbn; [exact IH|].
  constructor; [|apply IHl; intros q Hq; apply H2; right; exact Hq]. rewrite in_app_iff. intros [H|H]; [tauto|]. apply (H2 p); [left; reflexivity|exact H].
Qed.
Lemma nodup_kinds : NoDup [KPose; KVel; KBody].
Proof. repeat constructor; cbn; intuition discriminate. Qed.
Lemma thm_files f os e : est_run (build f) os = Ok e -> k_logger (f_est f) = true ->
  let pose := base (k_pose_file (f_est f)) "inekf_pose" in let vel := base (k_vel_file (f_est f)) "inekf_vel" in
  List.length (e_opened e) = S (n_clear os) /\
  NoDup (map (fun '(p, _, _) => p) (e_opened e)) /\ NoDup (flat_map (fun '(_, v, b) => [v; b]) (e_opened e)) /\
  (prefix pose vel = false -> prefix vel pose = false -> NoDup (all_names (e_opened e))).
Proof.
  intros E HL pose vel. rewrite (thm_opened f os e E HL). fold pose vel. set (ks := seq 0 (S (n_clear os))). assert (NoDup ks) as HK by apply seq_NoDup.
  split; [rewrite map_length; apply seq_length|]. split; [|split].
  - rewrite map_map. cbn [triple]. apply FinFun.Injective_map_NoDup; [|exact HK]. intros k j H. eapply name_same_kind; exact H.
  - assert (flat_map (fun '(_, v, b) => [v; b]) (map (triple pose vel) ks) = map (file_name pose vel) (list_prod ks [KVel; KBody])) as ->.
    { clear. induction ks as [|k ks IH]; cbn [map flat_map list_prod app]; [reflexivity|]. rewrite IH. reflexivity. }
    assert (forall x y, In x (list_prod ks [KVel; KBody]) -> In y (list_prod ks [KVel; KBody]) -> file_name pose vel x = file_name pose vel y -> x = y) as HI.
    { intros [k K] [j J] Hx Hy H. apply in_prod_iff in Hx, Hy. destruct Hx as [_ Hx], Hy as [_ Hy].
      destruct K, J; try (apply name_same_kind in H; congruence); try (exfalso; cbn in Hx, Hy; intuition discriminate).
      - exfalso. eapply name_vel_body; eauto.
      - exfalso. symmetry in H. eapply name_vel_body; eauto. }
    assert (NoDup (list_prod ks [KVel; KBody])) as HN by (apply nodup_prod; [exact HK|repeat constructor; cbn; intuition discriminate]).
    revert HI. induction HN as [|x l Hx HN IH]; intros HI; cbn [map]; constructor.
    + rewrite in_map_iff. intros (y & Hy & Hin). apply Hx. rewrite (HI x y); auto; [left; reflexivity|right; exact Hin].
    + apply IH. intros u v Hu Hv. apply HI; right; assumption.
  - intros P1 P2. rewrite all_names_triples. apply FinFun.Injective_map_NoDup; [intros x y; apply name_inj; assumption|]. apply nodup_prod; [exact HK|exact nodup_kinds].
Qed.
(** the extension of a name without directories is removed *)
Lemma has_dot_app a b : has_dot (a ++ b) = (has_dot a || has_dot b)%bool.
Proof. induction a as [|c a IH]; cbn; [reflexivity|]. destruct (Ascii.eqb c "."); auto. Qed.
Lemma thm_strip a ext : has_dot ext = false -> strip_ext (a ++ "." ++ ext) = a.
Proof.
  intros H. induction a as [|c a IH].
  - cbn. rewrite H. reflexivity.
  - cbn [append strip_ext]. assert (has_dot (a ++ "." ++ ext) = true) as HD by (rewrite has_dot_app; cbn; apply orb_true_r).
    cbn [has_dot]. cbn [append] in HD, IH. rewrite HD. destruct (Ascii.eqb c "."); cbn [andb negb]; rewrite IH; reflexivity.
Qed.
Lemma thm_strip_plain a : has_dot a = false -> strip_ext a = a.
Proof. destruct a; cbn [strip_ext]; [reflexivity|]. intros ->. reflexivity. Qed.

(** refuted: equal names, or names in a directory starting with a dot *)
Lemma thm_collision_refuted :
  e_opened (build (file_cfg "log.txt" "log.txt")) = [("log.txt", "log.txt", "log_body_frame.txt")] /\
  e_opened (build (file_cfg "./log/pose" "./log/vel")) = [(".txt", ".txt", "_body_frame.txt")].
Proof. split; reflexivity. Qed.
