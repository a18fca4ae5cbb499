(** Proofs about adaptations. *)
From Coq Require Import List Arith ZArith QArith Qround Qabs Qfield Bool Lia Lqa.
From Verif Require Import Base BaseProofs TextModel TextSpec RealModel RealSpec RealProofs FixProofs FloatProofs ParamTypeModel ParamTypeSpec BlackboardModel BlackboardProofs IntProofs
  XmlModel DeclModel AdaptModel AdaptSpec.
Import ListNotations.
Local Open Scope Q_scope.

Lemma Qabs_cases : forall x, (0 <= x /\ Qabs x == x) \/ (x <= 0 /\ Qabs x == - x).
Proof. intros x. destruct (Qlt_le_dec x 0) as [H|H]; [right|left]; split; try lra; [apply Qabs_neg; lra|apply Qabs_pos; auto]. Qed.
Ltac abs_cases := repeat match goal with
  | H : context [Qabs ?x] |- _ => let K := fresh "K" in let E := fresh "E" in destruct (Qabs_cases x) as [[K E]|[K E]]; rewrite E in *; clear E
  | |- context [Qabs ?x] => let K := fresh "K" in let E := fresh "E" in destruct (Qabs_cases x) as [[K E]|[K E]]; rewrite E; clear E
  end.

(** ** Rounding *)

Lemma round64_mono : forall p q, p <= q -> round64 p <= round64 q.
Proof.
  intros p q L. destruct (Qlt_le_dec (round64 q) (round64 p)) as [H|H]; [|exact H]. exfalso.
  assert (A := round_fp_nearest 53 (-1074) p (round64 q) ltac:(lia) (round_fp_format 53 (-1074) q ltac:(lia))).
  assert (B := round_fp_nearest 53 (-1074) q (round64 p) ltac:(lia) (round_fp_format 53 (-1074) p ltac:(lia))).
  fold round64 in A, B. change (round_fp 53 (-1074) p) with (round64 p) in A. change (round_fp 53 (-1074) q) with (round64 q) in B.
  assert (E : p == q).
  { abs_cases; lra. }
  assert (K : round64 p == round64 q) by (apply round_fp_comp; auto). lra.
Qed.

Lemma round64_0 : forall q, q == 0 -> round64 q == 0.
Proof. intros q H. unfold round64, round_fp. apply Qeq_bool_iff in H. rewrite H. reflexivity. Qed.

Lemma round64_comp : forall p q, p == q -> round64 p == round64 q.
Proof. intros. apply round_fp_comp; auto. Qed.

Lemma round64_exact : forall q, is_double q -> round64 q == q.
Proof. intros q (k & e & E & K & L). eapply round_fp_exact; eauto. lia. Qed.

Lemma round64_rel : forall q, q == 0 \/ pow2 (-1022) <= Qabs q -> Qabs (round64 q - q) <= Qabs q * pow2 (-53).
Proof.
  intros q [H|H].
  - rewrite (round64_0 q H), H. vm_compute. discriminate.
  - destruct (round_fp_rel_error 53 (-1074) q) as [K|K]; [exact K|]. unfold round64. eapply Qle_trans; [exact K|].
    change (pow2 (-1074 - 1)) with (pow2 (-1075)). replace (-1075)%Z with (-1022 + -53)%Z by lia. rewrite pow2_plus.
    apply Qmult_le_compat_r; [exact H|apply Qlt_le_weak, pow2_pos].
Qed.

Lemma max64_pow : pow2 1001 <= max64.
Proof. vm_compute. discriminate. Qed.

Lemma round64_fits : forall q, Qabs q <= pow2 1000 -> Qabs (round64 q) <= max64.
Proof.
  intros q H. eapply Qle_trans; [|exact max64_pow]. assert (E := round64_error q).
  assert (T : Qabs (round64 q) <= Qabs (round64 q - q) + Qabs q).
  { setoid_replace (round64 q) with ((round64 q - q) + q) at 1 by ring. apply Qabs_triangle. }
  assert (P : Qpower 2 (-53) <= (1 # 4)) by (vm_compute; discriminate). assert (P' : Qpower 2 (-1075) <= 1) by (vm_compute; discriminate).
  assert (R : 4 <= pow2 1000) by (vm_compute; discriminate). assert (S2 : pow2 1001 == 2 * pow2 1000) by (vm_compute; reflexivity).
  assert (U : Qabs q * Qpower 2 (-53) <= Qabs q * (1 # 4)). { rewrite Qmult_comm, (Qmult_comm (Qabs q)). apply Qmult_le_compat_r; [exact P|apply Qabs_nonneg]. }
  rewrite S2. lra.
Qed.

(** ** Double operations on finite operands *)

Lemma d_round_val : forall neg q, Qabs (round64 q) <= max64 -> exists r, d_val (d_round neg q) = Some r /\ r == round64 q.
Proof.
  intros neg q H. unfold d_round. destruct (Qeq_bool (round64 q) 0) eqn:E.
  - apply Qeq_bool_iff in E. exists 0. split; [destruct neg; reflexivity|rewrite E; reflexivity].
  - apply Qle_bool_iff in H. rewrite H. eexists. split; reflexivity.
Qed.

Lemma d_round_val_inv : forall neg q r, d_val (d_round neg q) = Some r -> r == round64 q.
Proof.
  intros neg q r. unfold d_round. destruct (Qeq_bool (round64 q) 0) eqn:E.
  - apply Qeq_bool_iff in E. intros H. rewrite E. destruct neg; simpl in H; injection H as <-; reflexivity.
  - destruct (Qle_bool _ _); simpl; intros H; [injection H as <-; reflexivity|discriminate].
Qed.

Lemma d_mul_fin : forall a b p q, d_val a = Some p -> d_val b = Some q -> d_mul a b = d_round (xorb (d_neg a) (d_neg b)) (p * q).
Proof. intros a b p q A B. destruct a, b; simpl in A, B; try discriminate; injection A as <-; injection B as <-; reflexivity. Qed.

Lemma d_div_fin : forall a b p q, d_val a = Some p -> d_val b = Some q -> ~ q == 0 -> d_div a b = d_round (xorb (d_neg a) (d_neg b)) (p / q).
Proof.
  intros a b p q A B N. assert (E : Qeq_bool q 0 = false) by (destruct (Qeq_bool q 0) eqn:E; [apply Qeq_bool_iff in E; contradiction|auto]).
  destruct a, b; simpl in A, B; try discriminate; injection A as <-; injection B as <-; unfold d_div; cbn [d_val]; rewrite E; reflexivity.
Qed.

Lemma d_val_nan : forall d, d_val d = None -> d = DNan \/ exists s, d = DInf s.
Proof. intros []; simpl; intros H; try discriminate; eauto. Qed.

(** A product with a finite number followed by a division is finite only when its operand is. *)
Lemma mul_div_finite : forall d s t y, ~ t == 0 -> d_val (d_div (d_mul d (DFin s)) (DFin t)) = Some y ->
  exists p y1, d_val d = Some p /\ y1 == round64 (p * s) /\ y == round64 (y1 / t).
Proof.
  intros d s t y N H. destruct (d_val d) as [p|] eqn:E.
  - assert (X : exists y1, d_val (d_mul d (DFin s)) = Some y1).
    { destruct (d_val (d_mul d (DFin s))) as [y1|] eqn:F; [eauto|]. apply d_val_nan in F. destruct F as [F|[z F]]; rewrite F in H; simpl in H; discriminate. }
    destruct X as (y1 & F). exists p, y1. split; [auto|].
    rewrite (d_div_fin _ (DFin t) y1 t F eq_refl N) in H. apply d_round_val_inv in H. rewrite (d_mul_fin _ (DFin s) p s E eq_refl) in F. apply d_round_val_inv in F. auto.
  - apply d_val_nan in E. destruct E as [->|[z ->]]; simpl in H; [discriminate|].
    destruct (Qeq_bool s 0); simpl in H; discriminate.
Qed.

Lemma mul_div_val : forall d s t p, d_val d = Some p -> ~ t == 0 -> Qabs (p * s) <= pow2 1000 -> Qabs (round64 (p * s) / t) <= pow2 1000 ->
  exists y, d_val (d_div (d_mul d (DFin s)) (DFin t)) = Some y /\ y == round64 (round64 (p * s) / t).
Proof.
  intros d s t p E N A B. rewrite (d_mul_fin _ (DFin s) p s E eq_refl).
  destruct (d_round_val (xorb (d_neg d) (d_neg (DFin s))) (p * s)) as (y1 & F & G); [apply round64_fits; auto|].
  rewrite (d_div_fin _ (DFin t) y1 t F eq_refl N).
  assert (K : y1 / t == round64 (p * s) / t) by (rewrite G; reflexivity).
  match goal with |- context [d_round ?n (y1 / t)] => destruct (d_round_val n (y1 / t)) as (y & Y & Z) end.
  - apply round64_fits. rewrite K. exact B.
  - exists y. split; [auto|]. rewrite Z. apply round64_comp. exact K.
Qed.

(** ** Errors *)

Lemma Qabs_div : forall a b, Qabs (a / b) == Qabs a / Qabs b.
Proof. intros a b. unfold Qdiv. rewrite Qabs_Qmult. rewrite Qabs_Qinv. reflexivity. Qed.

Lemma Qabs_nz : forall q, ~ q == 0 -> 0 < Qabs q.
Proof. exact Qabs_pos_nz. Qed.

(** Two successive errors, relative [u] and absolute [e]. *)
Lemma compose_errors : forall y1 x t y u e, 0 <= u -> u <= 1 -> 0 <= e -> ~ t == 0 ->
  Qabs (y1 - x) <= Qabs x * u + e -> Qabs (y - y1 / t) <= Qabs (y1 / t) * u + e ->
  Qabs (y - x / t) <= Qabs (x / t) * (3 * u) + e * (2 * / Qabs t + 1).
Proof.
  intros y1 x t y u e U0 U1 E0 N A B. assert (P := Qabs_nz t N). set (T := / Qabs t). assert (T0 : 0 < T) by (apply Qinv_lt_0_compat; auto).
  assert (A' : Qabs (y1 / t - x / t) <= Qabs (x / t) * u + e * T).
  { setoid_replace (y1 / t - x / t) with ((y1 - x) / t) by (field; auto). rewrite !Qabs_div. unfold Qdiv. fold T.
    setoid_replace (Qabs x * T * u + e * T) with ((Qabs x * u + e) * T) by ring. apply Qmult_le_compat_r; [exact A|lra]. }
  assert (C : Qabs (y1 / t) <= Qabs (x / t) + Qabs (y1 / t - x / t)).
  { setoid_replace (y1 / t) with (x / t + (y1 / t - x / t)) at 1 by ring. apply Qabs_triangle. }
  assert (D : Qabs (y - x / t) <= Qabs (y - y1 / t) + Qabs (y1 / t - x / t)).
  { setoid_replace (y - x / t) with ((y - y1 / t) + (y1 / t - x / t)) by ring. apply Qabs_triangle. }
  assert (R0 := Qabs_nonneg (x / t)). set (R := Qabs (x / t)) in *. set (Y := Qabs (y1 / t)) in *. set (W := Qabs (y1 / t - x / t)) in *.
  assert (W0 : 0 <= W) by apply Qabs_nonneg.
  assert (F : Y * u <= (R + R * u + e * T) * u) by (apply Qmult_le_compat_r; lra).
  assert (G : R * u * u <= R * u). { setoid_replace (R * u * u) with (u * (R * u)) by ring. setoid_replace (R * u) with (1 * (R * u)) at 2 by ring. apply Qmult_le_compat_r; [auto|]. apply Qmult_le_0_compat; auto. }
  assert (H : e * T * u <= e * T). { setoid_replace (e * T * u) with (u * (e * T)) by ring. setoid_replace (e * T) with (1 * (e * T)) at 2 by ring. apply Qmult_le_compat_r; [auto|]. apply Qmult_le_0_compat; lra. }
  setoid_replace ((R + R * u + e * T) * u) with (R * u + R * u * u + e * T * u) in F by ring.
  setoid_replace (R * (3 * u) + e * (2 * T + 1)) with (3 * (R * u) + 2 * (e * T) + e) by ring. lra.
Qed.

Lemma slope_nz : forall q, slope_ok q -> ~ q == 0.
Proof.
  intros q [H _] E. rewrite E in H. assert (P := pow2_pos (-400)). unfold pow2 in P. change (Qabs 0) with 0 in H. lra.
Qed.
Lemma slope_inv : forall q, slope_ok q -> Qpower 2 (-400) <= / Qabs q <= Qpower 2 400.
Proof.
  intros q H. assert (N := Qabs_nz q (slope_nz q H)). destruct H as [A B].
  assert (P : Qpower 2 (-400) * Qpower 2 400 == 1) by (vm_compute; reflexivity).
  assert (P1 : 0 < Qpower 2 (-400)) by (vm_compute; reflexivity). assert (P2 : 0 < Qpower 2 400) by (vm_compute; reflexivity).
  assert (I : Qabs q * / Qabs q == 1) by (apply Qmult_inv_r; lra). assert (I0 : 0 < / Qabs q) by (apply Qinv_lt_0_compat; auto).
  set (a := Qabs q) in *. set (i := / a) in *. set (x := Qpower 2 (-400)) in *. set (y := Qpower 2 400) in *. clearbody a i x y. split.
  - apply (Qmult_le_r x i a N). setoid_replace (i * a) with 1 by lra. rewrite <- P. setoid_replace (x * a) with (a * x) by ring. setoid_replace (x * y) with (y * x) by ring.
    apply Qmult_le_compat_r; lra.
  - apply (Qmult_le_r i y a N). setoid_replace (i * a) with 1 by lra. rewrite <- P. setoid_replace (y * a) with (a * y) by ring. apply Qmult_le_compat_r; lra.
Qed.

Definition u64 : Q := Qpower 2 (-53).
Lemma three_u : 3 * u64 <= Qpower 2 (-51).
Proof. vm_compute. discriminate. Qed.

Lemma Qmult_le_l2 : forall a b c, 0 <= c -> a <= b -> c * a <= c * b.
Proof. intros. rewrite (Qmult_comm c a), (Qmult_comm c b). apply Qmult_le_compat_r; auto. Qed.
Lemma Qmult_le_both : forall a b c d, 0 <= a -> a <= b -> 0 <= c -> c <= d -> a * c <= b * d.
Proof. intros a b c d A B C D. apply (Qle_trans _ (b * c)); [apply Qmult_le_compat_r; auto|apply Qmult_le_l2; lra]. Qed.

Lemma pow_small : forall a b c d : Q, 0 <= a -> a <= b -> 0 <= c -> c <= d -> a * c <= b * d.
Proof. exact Qmult_le_both. Qed.

Lemma two_rounds : forall x t, slope_ok t ->
  Qabs (round64 (round64 x / t) - x / t) <= Qabs (x / t) * Qpower 2 (-51) + Qpower 2 (-600).
Proof.
  intros x t H. eapply Qle_trans; [apply (compose_errors (round64 x) x t (round64 (round64 x / t)) u64 (Qpower 2 (-1075)))|].
  - vm_compute. discriminate.
  - vm_compute. discriminate.
  - vm_compute. discriminate.
  - apply slope_nz. auto.
  - apply round64_error.
  - apply round64_error.
  - apply Qplus_le_compat; [apply Qmult_le_l2; [apply Qabs_nonneg|apply three_u]|].
    apply (Qle_trans _ (Qpower 2 (-1075) * (2 * Qpower 2 400 + 1))); [|vm_compute; discriminate].
    apply Qmult_le_l2; [vm_compute; discriminate|]. destruct (slope_inv t H). lra.
Qed.

Lemma Qle_div_abs : forall x t b, slope_ok t -> b <= Qabs x -> 0 <= b -> b * Qpower 2 (-400) <= Qabs (x / t).
Proof.
  intros x t b H A B. rewrite Qabs_div. unfold Qdiv. destruct (slope_inv t H). apply Qmult_le_both; auto. vm_compute. discriminate.
Qed.
Lemma Qdiv_abs_le : forall x t b, slope_ok t -> Qabs x <= b -> Qabs (x / t) <= b * Qpower 2 400.
Proof.
  intros x t b H A. rewrite Qabs_div. unfold Qdiv. destruct (slope_inv t H). apply Qmult_le_both; auto; [apply Qabs_nonneg|].
  apply (Qle_trans _ (Qpower 2 (-400))); auto. vm_compute. discriminate.
Qed.
Lemma Qmul_abs_le : forall x s b, slope_ok s -> Qabs x <= b -> Qabs (x * s) <= b * Qpower 2 400.
Proof.
  intros x s b [_ H] A. rewrite Qabs_Qmult. apply Qmult_le_both; auto; apply Qabs_nonneg.
Qed.
Lemma Qle_mul_abs : forall x s b, slope_ok s -> b <= Qabs x -> 0 <= b -> b * Qpower 2 (-400) <= Qabs (x * s).
Proof. intros x s b [H _] A B. rewrite Qabs_Qmult. apply Qmult_le_both; auto. vm_compute. discriminate. Qed.

(** Rounding at least halves nothing: the magnitude of a number that is not too small is kept within a factor of two. *)
Lemma round64_keep : forall q, pow2 (-1022) <= Qabs q -> (1 # 2) * Qabs q <= Qabs (round64 q) <= 2 * Qabs q.
Proof.
  intros q H. assert (E := round64_rel q (or_intror H)). assert (P : pow2 (-53) <= (1 # 2)) by (vm_compute; discriminate).
  assert (K : Qabs q * pow2 (-53) <= Qabs q * (1 # 2)) by (apply Qmult_le_l2; [apply Qabs_nonneg|auto]).
  assert (A : Qabs (round64 q) <= Qabs (round64 q - q) + Qabs q).
  { setoid_replace (round64 q) with ((round64 q - q) + q) at 1 by ring. apply Qabs_triangle. }
  assert (B : Qabs q <= Qabs (round64 q - q) + Qabs (round64 q)).
  { setoid_replace q with ((q - round64 q) + round64 q) at 1 by ring. rewrite (Qabs_Qminus (round64 q) q). apply Qabs_triangle. }
  assert (0 <= Qabs q) by apply Qabs_nonneg. lra.
Qed.

Lemma two_rounds_rel : forall x t, slope_ok t -> x == 0 \/ pow2 (-600) <= Qabs x ->
  Qabs (round64 (round64 x / t) - x / t) <= Qabs (x / t) * Qpower 2 (-51).
Proof.
  intros x t H [Z|B].
  - assert (N := slope_nz t H). assert (E : round64 x / t == 0) by (rewrite (round64_0 x Z); field; auto).
    assert (F : x / t == 0) by (rewrite Z; field; auto). rewrite (round64_0 _ E), F. vm_compute. discriminate.
  - assert (P0 : pow2 (-1022) <= pow2 (-600)) by (vm_compute; discriminate).
    assert (K := round64_keep x ltac:(lra)).
    eapply Qle_trans; [apply (compose_errors (round64 x) x t (round64 (round64 x / t)) u64 0)|].
    + vm_compute. discriminate.
    + vm_compute. discriminate.
    + lra.
    + apply slope_nz. auto.
    + rewrite Qplus_0_r. apply round64_rel. right. lra.
    + rewrite Qplus_0_r. apply round64_rel. right.
      apply (Qle_trans _ ((1 # 2) * pow2 (-600) * Qpower 2 (-400))); [vm_compute; discriminate|]. apply Qle_div_abs; [auto|lra|vm_compute; discriminate].
    + rewrite Qmult_0_l, Qplus_0_r. apply Qmult_le_l2; [apply Qabs_nonneg|apply three_u].
Qed.

(** ** Truncation *)

Lemma q_trunc_spec : forall y, truncated y (q_trunc y).
Proof.
  intros y. unfold truncated, q_trunc. destruct (Qle_bool 0 y) eqn:E.
  - apply Qle_bool_iff in E. destruct (Qfloor_spec y) as [A B]. assert (C : (0 <= Qfloor y)%Z).
    { apply (Qfloor_resp_le 0 y) in E. exact E. }
    apply inject_Z_le in C. change (inject_Z 0) with 0 in C.
    rewrite (Qabs_pos (inject_Z (Qfloor y)) C), (Qabs_pos y E), Qabs_pos by lra. split; [lra|]. split; [lra|]. apply Qmult_le_0_compat; auto.
  - assert (E' : ~ 0 <= y) by (intros K; apply Qle_bool_iff in K; congruence). assert (Ey : y < 0) by (apply Qnot_le_lt; auto). clear E E'.
    destruct (Qfloor_spec (- y)) as [A B]. assert (C : (0 <= Qfloor (- y))%Z).
    { assert (P : 0 <= - y) by lra. apply (Qfloor_resp_le 0 (- y)) in P. exact P. }
    apply inject_Z_le in C. change (inject_Z 0) with 0 in C. rewrite inject_Z_opp. set (f := inject_Z (Qfloor (- y))) in *.
    rewrite Qabs_opp, (Qabs_pos f C), (Qabs_neg y) by lra. rewrite Qabs_neg by lra. split; [lra|]. split; [lra|].
    setoid_replace (y * - f) with ((- y) * f) by ring. apply Qmult_le_0_compat; lra.
Qed.

Lemma q_trunc_comp : forall p q, p == q -> q_trunc p = q_trunc q.
Proof.
  intros p q H. unfold q_trunc. assert (E : Qle_bool 0 p = Qle_bool 0 q) by (apply eq_true_iff_eq; rewrite !Qle_bool_iff, H; tauto). rewrite E.
  destruct (Qle_bool 0 q); [apply Qfloor_comp; auto|]. f_equal. apply Qfloor_comp. rewrite H. reflexivity.
Qed.

Lemma q_trunc_mono : forall p q, p <= q -> (q_trunc p <= q_trunc q)%Z.
Proof.
  intros p q H. destruct (q_trunc_spec p) as (A & B & C), (q_trunc_spec q) as (A' & B' & C').
  destruct (Z.le_gt_cases (q_trunc p) (q_trunc q)) as [L|L]; auto. exfalso.
  unfold q_trunc in *. destruct (Qle_bool 0 p) eqn:Ep, (Qle_bool 0 q) eqn:Eq.
  - assert (K := Qfloor_resp_le p q H). lia.
  - apply Qle_bool_iff in Ep. assert (0 <= q) by lra. apply Qle_bool_iff in H0. congruence.
  - assert (0 <= Qfloor q)%Z. { apply Qle_bool_iff in Eq. apply (Qfloor_resp_le 0 q) in Eq. exact Eq. }
    assert (0 <= Qfloor (- p))%Z. { assert (~ 0 <= p) by (intros K; apply Qle_bool_iff in K; congruence). assert (P : 0 <= - p) by lra. apply (Qfloor_resp_le 0 (- p)) in P. exact P. }
    lia.
  - assert (P : - q <= - p) by lra. apply Qfloor_resp_le in P. lia.
Qed.

Lemma q_trunc_int : forall z, q_trunc (inject_Z z) = z.
Proof.
  intros z. unfold q_trunc. destruct (Qle_bool 0 (inject_Z z)); [apply Qfloor_Z|].
  assert (E : Qfloor (- inject_Z z) = (- z)%Z). { rewrite <- (Qfloor_Z (- z)). apply Qfloor_comp. rewrite inject_Z_opp. reflexivity. } rewrite E. lia.
Qed.

Lemma truncated_pos : forall y z, 0 <= y -> truncated y z -> 0 <= inject_Z z /\ inject_Z z <= y /\ y < inject_Z z + 1.
Proof.
  intros y z P (A & B & C). rewrite (Qabs_pos y P) in A. assert (D := Qle_Qabs (inject_Z z)). assert (Z0 : 0 <= inject_Z z).
  { destruct (Qlt_le_dec (inject_Z z) 0) as [L|L]; [|auto]. exfalso. rewrite (Qabs_neg (inject_Z z)) in A by lra. assert (Y : 0 < y) by lra.
    assert (Y' : 0 < - inject_Z z) by lra. assert (K := Qmult_lt_0_compat _ _ Y Y'). lra. }
  split; [auto|]. split; [lra|]. rewrite Qabs_pos in B by lra. lra.
Qed.
Lemma truncated_opp : forall y z, truncated y z -> truncated (- y) (- z).
Proof.
  intros y z (A & B & C). unfold truncated. rewrite inject_Z_opp, !Qabs_opp. split; [auto|]. split.
  - setoid_replace (- y - - inject_Z z) with (- (y - inject_Z z)) by ring. rewrite Qabs_opp. auto.
  - setoid_replace (- y * - inject_Z z) with (y * inject_Z z) by ring. auto.
Qed.
Lemma truncated_one : forall y z z', truncated y z -> truncated y z' -> z = z'.
Proof.
  assert (P : forall y z z', 0 <= y -> truncated y z -> truncated y z' -> z = z').
  { intros y z z' Y H H'. apply truncated_pos in H; auto. apply truncated_pos in H'; auto.
    rewrite <- (Qfloor_unique y z); [|lra|lra]. symmetry. rewrite <- (Qfloor_unique y z'); [reflexivity|lra|lra]. }
  intros y z z' H H'. destruct (Qlt_le_dec y 0) as [L|L]; [|eauto]. assert (E : (- z = - z')%Z); [|lia].
  apply (P (- y)); [lra|apply truncated_opp; auto|apply truncated_opp; auto].
Qed.

(** ** Linear adaptation *)

Lemma round64_le2 : forall q, Qabs (round64 q) <= 2 * Qabs q + 1.
Proof.
  intros q. assert (E := round64_error q).
  assert (T : Qabs (round64 q) <= Qabs (round64 q - q) + Qabs q).
  { setoid_replace (round64 q) with ((round64 q - q) + q) at 1 by ring. apply Qabs_triangle. }
  assert (P' : Qpower 2 (-1075) <= 1) by (vm_compute; discriminate).
  assert (U : Qabs q * Qpower 2 (-53) <= Qabs q * 1) by (apply Qmult_le_l2; [apply Qabs_nonneg|vm_compute; discriminate]). lra.
Qed.

Lemma scaled_val : forall d s t p, d_val d = Some p -> slope_ok s -> slope_ok t -> Qabs (p * s) <= pow2 500 ->
  exists y, d_val (d_div (d_mul d (DFin s)) (DFin t)) = Some y /\ y == round64 (round64 (p * s) / t).
Proof.
  intros d s t p E Hs Ht B. apply mul_div_val; auto; [apply slope_nz; auto|apply (Qle_trans _ (pow2 500)); [auto|vm_compute; discriminate]|].
  apply (Qle_trans _ ((2 * pow2 500 + 1) * Qpower 2 400)); [|vm_compute; discriminate]. apply Qdiv_abs_le; auto.
  assert (K := round64_le2 (p * s)). lra.
Qed.

Lemma fits64_small : forall z, (- 2 ^ 63 <= z <= 2 ^ 63 - 1)%Z -> fits64 z = true.
Proof. intros z H. unfold fits64. apply andb_true_intro. split; apply Z.leb_le; lia. Qed.

Lemma linear_from_val : forall off num den d y, (- 2 ^ 31 <= off <= 2 ^ 31 - 1)%Z ->
  d_val (d_div (d_mul d (DFin num)) (DFin den)) = Some y -> Qabs y <= inject_Z (2 ^ 62 + 2 ^ 12) -> linear_from off num den d = Ok (q_trunc y + off)%Z.
Proof.
  intros off num den d y Ho H B. unfold linear_from, base_from, d_to_int64. rewrite H. destruct (q_trunc_spec y) as (A & _).
  assert (K : inject_Z (Z.abs (q_trunc y)) <= inject_Z (2 ^ 62 + 2 ^ 12)). { rewrite <- (Qabs_inject_Z (q_trunc y)) || idtac. change (inject_Z (Z.abs (q_trunc y))) with (Qabs (inject_Z (q_trunc y))). lra. }
  apply inject_Z_le in K. rewrite fits64_small by lia. cbn [obind]. rewrite fits64_small by lia. reflexivity.
Qed.

Lemma linear_from_spec : forall off num den d p, (- 2 ^ 31 <= off <= 2 ^ 31 - 1)%Z -> slope_ok num -> slope_ok den -> d_val d = Some p ->
  Qabs (p * num / den) <= inject_Z (2 ^ 62) ->
  exists y, Qabs (y - p * num / den) <= Qabs (p * num / den) * Qpower 2 (-51) + Qpower 2 (-600)
    /\ linear_from off num den d = Ok (q_trunc y + off)%Z.
Proof.
  intros off num den d p Ho Hn Hd E B. assert (X : Qabs (p * num) <= pow2 500).
  { setoid_replace (p * num) with (p * num / den * den) by (field; apply slope_nz; auto).
    apply (Qle_trans _ (inject_Z (2 ^ 62) * Qpower 2 400)); [apply Qmul_abs_le; auto|vm_compute; discriminate]. }
  destruct (scaled_val d num den p E Hn Hd X) as (y & Y & Z). assert (K := two_rounds (p * num) den Hd).
  assert (K' : Qabs (y - p * num / den) <= Qabs (p * num / den) * Qpower 2 (-51) + Qpower 2 (-600)) by (rewrite Z; exact K).
  exists y. split; [exact K'|]. apply linear_from_val; auto.
  set (r := p * num / den) in *. assert (T : Qabs y <= Qabs (y - r) + Qabs r). { setoid_replace y with ((y - r) + r) at 1 by ring. apply Qabs_triangle. }
  assert (U : Qabs r * Qpower 2 (-51) <= inject_Z (2 ^ 62) * Qpower 2 (-51)) by (apply Qmult_le_compat_r; [auto|vm_compute; discriminate]).
  assert (V : inject_Z (2 ^ 62) * Qpower 2 (-51) + Qpower 2 (-600) <= inject_Z (2 ^ 12)) by (vm_compute; discriminate).
  rewrite inject_Z_plus. lra.
Qed.

Lemma int_is_double : forall x, (Z.abs x < 2 ^ 53)%Z -> is_double (inject_Z x).
Proof. intros x H. exists x, 0%Z. split; [change (Qpower 2 0) with 1; ring|]. split; [auto|lia]. Qed.

Lemma linear_to_val : forall off num den i, (Z.abs (i - off) <= 2 ^ 33)%Z -> slope_ok num -> slope_ok den ->
  exists q, d_val (linear_to off num den i) = Some q /\ q == round64 (round64 (inject_Z (i - off) * den) / num).
Proof.
  intros off num den i H Hn Hd. unfold linear_to, base_to.
  assert (E : round64 (inject_Z (i - off)) == inject_Z (i - off)) by (apply round64_exact, int_is_double; lia).
  destruct (scaled_val (DFin (round64 (inject_Z (i - off)))) den num (round64 (inject_Z (i - off))) eq_refl Hd Hn) as (q & Q1 & Q2).
  - rewrite E. apply (Qle_trans _ (inject_Z (2 ^ 33) * Qpower 2 400)); [apply Qmul_abs_le; auto|vm_compute; discriminate].
    change (Qabs (inject_Z (i - off))) with (inject_Z (Z.abs (i - off))). rewrite <- Zle_Qle. exact H.
  - exists q. split; [exact Q1|]. rewrite Q2. apply round64_comp. unfold Qdiv. apply Qmult_comp; [|reflexivity]. apply round64_comp. rewrite E. reflexivity.
Qed.

Lemma linear_to_spec : forall off num den i, (Z.abs (i - off) <= 2 ^ 33)%Z -> slope_ok num -> slope_ok den ->
  exists q, d_val (linear_to off num den i) = Some q
    /\ Qabs (q - inject_Z (i - off) * den / num) <= Qabs (inject_Z (i - off) * den / num) * Qpower 2 (-51).
Proof.
  intros off num den i H Hn Hd. destruct (linear_to_val off num den i H Hn Hd) as (q & A & B). exists q. split; [auto|]. rewrite B.
  apply two_rounds_rel; auto. destruct (Z.eq_dec (i - off) 0) as [Z|Z]; [left; rewrite Z; ring|right].
  apply (Qle_trans _ (1 * Qpower 2 (-400))); [vm_compute; discriminate|]. apply Qle_mul_abs; auto; [|discriminate].
  change (Qabs (inject_Z (i - off))) with (inject_Z (Z.abs (i - off))). change 1 with (inject_Z 1). rewrite <- Zle_Qle. lia.
Qed.

Lemma linear_from_inv : forall off num den d i, slope_ok num -> slope_ok den -> linear_from off num den d = Ok i ->
  exists p y, d_val d = Some p /\ y == round64 (round64 (p * num) / den) /\ i = (q_trunc y + off)%Z.
Proof.
  intros off num den d i Hn Hd H. unfold linear_from, base_from, d_to_int64 in H.
  destruct (d_val (d_div (d_mul d (DFin num)) (DFin den))) as [y|] eqn:E; [|discriminate].
  destruct (fits64 (q_trunc y)); [|discriminate]. cbn [obind] in H. destruct (fits64 (q_trunc y + off)); [|discriminate].
  destruct (mul_div_finite d num den y (slope_nz den Hd) E) as (p & y1 & A & B & C). exists p, y. split; [auto|]. split; [|congruence].
  rewrite C. apply round64_comp. rewrite B. reflexivity.
Qed.

Lemma near_trunc : forall y x, Qabs (y - inject_Z x) < 1 ->
  q_trunc y = x \/ ((0 < x)%Z /\ q_trunc y = (x - 1)%Z) \/ ((x < 0)%Z /\ q_trunc y = (x + 1)%Z).
Proof.
  intros y x H. assert (T := q_trunc_spec y). set (z := q_trunc y) in *. assert (B : - (1) < y - inject_Z x < 1) by (apply Qabs_Qlt_condition; auto).
  assert (LT : forall a b, inject_Z a < inject_Z b -> (a < b)%Z) by (intros a b K; rewrite Zlt_Qlt; exact K).
  destruct (Qlt_le_dec y 0) as [L|L].
  - apply truncated_opp in T. apply truncated_pos in T; [|lra]. rewrite inject_Z_opp in T. destruct T as (T1 & T2 & T3).
    assert (K1 : (x - 1 < z)%Z). { apply LT. change (x - 1)%Z with (x + - (1))%Z. rewrite inject_Z_plus. change (inject_Z (- (1))) with (- (1))%Q. lra. }
    assert (K2 : (z < x + 2)%Z). { apply LT. rewrite inject_Z_plus. change (inject_Z 2) with 2%Q. lra. }
    assert (K3 : (x < 1)%Z). { apply LT. change (inject_Z 1) with 1%Q. lra. }
    assert (K4 : (z < 1)%Z). { apply LT. change (inject_Z 1) with 1%Q. lra. } lia.
  - apply truncated_pos in T; [|lra]. destruct T as (T1 & T2 & T3).
    assert (K1 : (z < x + 1)%Z). { apply LT. rewrite inject_Z_plus. change (inject_Z 1) with 1%Q. lra. }
    assert (K2 : (x - 2 < z)%Z). { apply LT. change (x - 2)%Z with (x + - (2))%Z. rewrite inject_Z_plus. change (inject_Z (- (2))) with (- (2))%Q. lra. }
    assert (K3 : (-1 < x)%Z). { apply LT. change (inject_Z (-1)) with (-(1))%Q. lra. }
    assert (K4 : (-1 < z)%Z). { apply LT. change (inject_Z (-1)) with (-(1))%Q. lra. } lia.
Qed.

Lemma Qabs_near : forall x y e, Qabs (y - x) <= e -> Qabs y <= Qabs x + e.
Proof. intros x y e H. assert (T : Qabs y <= Qabs (y - x) + Qabs x). { setoid_replace y with ((y - x) + x) at 1 by ring. apply Qabs_triangle. } lra. Qed.
Lemma Qabs_near2 : forall x y z e f, Qabs (z - y) <= e -> Qabs (y - x) <= f -> Qabs (z - x) <= e + f.
Proof. intros x y z e f H K. setoid_replace (z - x) with ((z - y) + (y - x)) by ring. eapply Qle_trans; [apply Qabs_triangle|lra]. Qed.

(** Reading a value and writing the double read: the value or one step towards the offset. *)
Lemma linear_back : forall off num den v, (- 2 ^ 31 <= off <= 2 ^ 31 - 1)%Z -> slope_ok num -> slope_ok den -> (Z.abs (v - off) <= 2 ^ 33)%Z ->
  exists w, linear_from off num den (linear_to off num den v) = Ok w
    /\ (w = v \/ ((off < v)%Z /\ w = (v - 1)%Z) \/ ((v < off)%Z /\ w = (v + 1)%Z)).
Proof.
  intros off num den v Ho Hn Hd Hv. destruct (linear_to_spec off num den v Hv Hn Hd) as (q & Q1 & Q2).
  assert (Nn := slope_nz num Hn). assert (Nd := slope_nz den Hd). set (x := (v - off)%Z) in *.
  assert (X0 : Qabs (inject_Z x) <= inject_Z (2 ^ 33)). { change (Qabs (inject_Z x)) with (inject_Z (Z.abs x)). rewrite <- Zle_Qle. exact Hv. }
  assert (R : Qabs (q * num / den - inject_Z x) <= Qabs (inject_Z x) * Qpower 2 (-51)).
  { setoid_replace (q * num / den - inject_Z x) with ((q - inject_Z x * den / num) * (num / den)) by (field; auto).
    rewrite Qabs_Qmult. eapply Qle_trans; [apply Qmult_le_compat_r; [exact Q2|apply Qabs_nonneg]|]. apply Qle_lteq. right.
    setoid_replace (Qabs (inject_Z x * den / num) * Qpower 2 (-51) * Qabs (num / den)) with (Qabs (inject_Z x * den / num) * Qabs (num / den) * Qpower 2 (-51)) by ring.
    rewrite <- Qabs_Qmult. apply Qmult_comp; [|reflexivity]. apply Qabs_wd. field. auto. }
  assert (X1 : Qabs (inject_Z x) * Qpower 2 (-51) <= inject_Z (2 ^ 33) * Qpower 2 (-51)) by (apply Qmult_le_compat_r; [auto|vm_compute; discriminate]).
  assert (R1 : Qabs (q * num / den) <= inject_Z (2 ^ 34)).
  { assert (K := Qabs_near _ _ _ R). assert (C : inject_Z (2 ^ 33) + inject_Z (2 ^ 33) * Qpower 2 (-51) <= inject_Z (2 ^ 34)) by (vm_compute; discriminate). lra. }
  destruct (linear_from_spec off num den _ q Ho Hn Hd Q1) as (y & Y1 & Y2). { eapply Qle_trans; [exact R1|vm_compute; discriminate]. }
  assert (R2 : Qabs (q * num / den) * Qpower 2 (-51) <= inject_Z (2 ^ 34) * Qpower 2 (-51)) by (apply Qmult_le_compat_r; [auto|vm_compute; discriminate]).
  assert (K := Qabs_near2 _ _ _ _ _ Y1 R).
  assert (C : inject_Z (2 ^ 34) * Qpower 2 (-51) + Qpower 2 (-600) + inject_Z (2 ^ 33) * Qpower 2 (-51) < 1) by (vm_compute; reflexivity).
  assert (L : Qabs (y - inject_Z x) < 1) by lra. destruct (near_trunc y x L) as [E|[[E1 E]|[E1 E]]]; rewrite E in Y2;
    eexists; (split; [exact Y2|]); unfold x in *; lia.
Qed.

Lemma linear_back_exact : forall off num den v, (- 2 ^ 31 <= off <= 2 ^ 31 - 1)%Z -> slope_ok num -> slope_ok den -> (Z.abs (v - off) <= 2 ^ 33)%Z ->
  is_double (inject_Z (v - off) * den) -> is_double (inject_Z (v - off) * den / num) -> linear_from off num den (linear_to off num den v) = Ok v.
Proof.
  intros off num den v Ho Hn Hd Hv D1 D2. destruct (linear_to_val off num den v Hv Hn Hd) as (q & Q1 & Q2).
  assert (Nn := slope_nz num Hn). assert (Nd := slope_nz den Hd). set (x := (v - off)%Z) in *.
  assert (E : q == inject_Z x * den / num).
  { rewrite Q2. rewrite <- (round64_exact _ D2). apply round64_comp. rewrite (round64_exact _ D1). reflexivity. }
  assert (X0 : Qabs (inject_Z x) <= inject_Z (2 ^ 33)). { change (Qabs (inject_Z x)) with (inject_Z (Z.abs x)). rewrite <- Zle_Qle. exact Hv. }
  assert (E1 : q * num == inject_Z x * den) by (rewrite E; field; auto).
  destruct (scaled_val _ num den q Q1 Hn Hd) as (y & Y1 & Y2).
  { rewrite E1. apply (Qle_trans _ (inject_Z (2 ^ 33) * Qpower 2 400)); [apply Qmul_abs_le; auto|vm_compute; discriminate]. }
  assert (E2 : y == inject_Z x).
  { rewrite Y2. assert (Dx : is_double (inject_Z x)) by (apply int_is_double; lia). rewrite <- (round64_exact _ Dx). apply round64_comp.
    assert (E3 : round64 (q * num) == inject_Z x * den) by (rewrite <- (round64_exact _ D1); apply round64_comp; exact E1). rewrite E3. field. auto. }
  rewrite (linear_from_val off num den _ y Ho Y1).
  - rewrite (q_trunc_comp _ _ E2), q_trunc_int. f_equal. unfold x. ring.
  - rewrite E2. eapply Qle_trans; [exact X0|vm_compute; discriminate].
Qed.

Lemma linear_mono : forall off num den d d' p p' i i', slope_ok num -> slope_ok den -> 0 < num / den -> d_val d = Some p -> d_val d' = Some p' -> p <= p' ->
  linear_from off num den d = Ok i -> linear_from off num den d' = Ok i' -> (i <= i')%Z.
Proof.
  intros off num den d d' p p' i i' Hn Hd Hs Ep Ep' L F F'.
  destruct (linear_from_inv _ _ _ _ _ Hn Hd F) as (p1 & y & A & B & C), (linear_from_inv _ _ _ _ _ Hn Hd F') as (p1' & y' & A' & B' & C').
  assert (p1 = p) by congruence. assert (p1' = p') by congruence. subst p1 p1' i i'. clear A A'.
  assert (K : y <= y'); [|apply q_trunc_mono in K; lia]. rewrite B, B'. apply round64_mono. assert (Nd := slope_nz den Hd).
  destruct (Qlt_le_dec 0 den) as [P|P].
  - assert (Pn : 0 < num). { setoid_replace num with (num / den * den) by (field; auto). apply Qmult_lt_0_compat; auto. }
    apply Qmult_le_compat_r; [|apply Qlt_le_weak, Qinv_lt_0_compat; auto]. apply round64_mono. apply Qmult_le_compat_r; [auto|lra].
  - assert (Pd : 0 < - den). { destruct (Qeq_dec den 0); [contradiction|]. lra. }
    assert (Pn : 0 < - num). { setoid_replace (- num) with (num / den * - den) by (field; auto). apply Qmult_lt_0_compat; auto. }
    assert (M : p' * num <= p * num). { assert (K := Qmult_le_compat_r p p' (- num) L). lra. } apply round64_mono in M.
    setoid_replace (round64 (p * num) / den) with (- round64 (p * num) / - den) by (field; auto).
    setoid_replace (round64 (p' * num) / den) with (- round64 (p' * num) / - den) by (field; auto).
    apply Qmult_le_compat_r; [lra|apply Qlt_le_weak, Qinv_lt_0_compat; auto].
Qed.

(** Writing a number and reading it back. *)
Lemma linear_reread : forall off num den d p i, (- 2 ^ 31 <= off <= 2 ^ 31 - 1)%Z -> slope_ok num -> slope_ok den -> d_val d = Some p ->
  linear_from off num den d = Ok i -> (Z.abs (i - off) <= 2 ^ 33)%Z ->
  exists p', d_val (linear_to off num den i) = Some p' /\ Qabs (p' - p) <= Qabs (den / num) * (1 + Qpower 2 (-49)) + Qabs p * Qpower 2 (-49).
Proof.
  intros off num den d p i Ho Hn Hd Ep F Hi. destruct (linear_from_inv _ _ _ _ _ Hn Hd F) as (p1 & y & A & B & C).
  assert (p1 = p) by congruence. subst p1 i. clear A. assert (Nn := slope_nz num Hn). assert (Nd := slope_nz den Hd).
  destruct (linear_to_spec off num den _ Hi Hn Hd) as (q & Q1 & Q2). exists q. split; [auto|].
  replace (q_trunc y + off - off)%Z with (q_trunc y) in Q2 by ring. destruct (q_trunc_spec y) as (T1 & T2 & _). set (z := inject_Z (q_trunc y)) in *.
  assert (K := two_rounds (p * num) den Hd). rewrite <- B in K. set (s := den / num) in *. set (r := p * num / den) in *.
  set (e := Qpower 2 (-51)) in *. set (t := Qpower 2 (-600)) in *.
  assert (Zr : Qabs (z - r) <= 1 + (Qabs r * e + t)). { eapply Qabs_near2; [|exact K]. rewrite Qabs_Qminus. lra. }
  assert (Zz : Qabs z <= Qabs r + (Qabs r * e + t)). { assert (W := Qabs_near _ _ _ K). lra. }
  assert (E1 : z * den / num == z * s) by (unfold s; field; auto). assert (E2 : r * s == p) by (unfold r, s; field; auto).
  assert (Q3 : Qabs (z * s - p) <= (1 + (Qabs r * e + t)) * Qabs s).
  { rewrite <- E2. setoid_replace (z * s - r * s) with ((z - r) * s) by ring. rewrite Qabs_Qmult. apply Qmult_le_compat_r; [auto|apply Qabs_nonneg]. }
  assert (Q4 : Qabs (q - z * s) <= (Qabs r + (Qabs r * e + t)) * Qabs s * e).
  { rewrite <- E1 at 1. eapply Qle_trans; [exact Q2|]. apply Qmult_le_compat_r; [|vm_compute; discriminate]. rewrite E1, Qabs_Qmult. apply Qmult_le_compat_r; [auto|apply Qabs_nonneg]. }
  assert (Q5 := Qabs_near2 _ _ _ _ _ Q4 Q3). assert (E3 : Qabs r * Qabs s == Qabs p) by (rewrite <- Qabs_Qmult; apply Qabs_wd; exact E2).
  eapply Qle_trans; [exact Q5|].
  setoid_replace ((Qabs r + (Qabs r * e + t)) * Qabs s * e + (1 + (Qabs r * e + t)) * Qabs s) with (Qabs r * Qabs s * (2 * e + e * e) + Qabs s * (1 + (t + t * e))) by ring.
  rewrite E3. assert (C1 : 2 * e + e * e <= Qpower 2 (-49)) by (vm_compute; discriminate). assert (C2 : 1 + (t + t * e) <= 1 + Qpower 2 (-49)) by (vm_compute; discriminate).
  assert (M1 := Qmult_le_l2 _ _ (Qabs p) (Qabs_nonneg p) C1). assert (M2 := Qmult_le_l2 _ _ (Qabs s) (Qabs_nonneg s) C2). lra.
Qed.

(** ** Access to a parameter *)

Lemma d_val_number : forall d q, number_of d q <-> d_val d = Some q.
Proof.
  intros d q. unfold number_of. split.
  - intros [->|[-> ->]]; reflexivity.
  - destruct d; cbn; intros H; try discriminate; injection H as <-; auto.
Qed.

Lemma value_spans : forall sg b v off, size_ok b -> (width_lo sg b <= v <= width_hi sg b)%Z -> (- 2 ^ 31 <= off <= 2 ^ 31 - 1)%Z -> (Z.abs (v - off) <= 2 ^ 33)%Z.
Proof.
  intros sg b v off Hb Hv Ho. destruct sg; [apply width_in_i32 in Hv|apply width_in_u32 in Hv]; auto; lia.
Qed.

Lemma int_set_value : forall l sg b lo hi a rest d o bb i, size_ok b -> (o + b <= List.length bb)%nat -> adapt_from l a d = Ok i -> (lo <= i <= hi)%Z ->
  exists bb', int_set_dbl l (PInt sg b lo hi) (a :: rest) d o bb = Ok bb' /\ has_value b o bb' i /\ only_changed b o bb bb'.
Proof.
  intros l sg b lo hi a rest d o bb i Hb Ho H Hi. destruct (write_read_word bb (to_ctype t_uint32 i) b o Ho) as (bb' & A & B & C & D).
  exists bb'. unfold int_set_dbl, int_of_dbl. rewrite H. cbn [obind]. destruct (Z.ltb_spec i lo); [lia|]. destruct (Z.ltb_spec hi i); [lia|]. cbn [orb obind].
  split; [exact A|]. split; [|split; auto]. unfold has_value. rewrite C, word_of_u32; auto.
Qed.

Lemma int_set_same : forall l sg b lo hi a rest d o bb i, size_ok b -> has_value b o bb i -> adapt_from l a d = Ok i -> (lo <= i <= hi)%Z ->
  int_set_dbl l (PInt sg b lo hi) (a :: rest) d o bb = Ok bb.
Proof.
  intros l sg b lo hi a rest d o bb i Hb V H Hi. unfold int_set_dbl, int_of_dbl. rewrite H. cbn [obind]. destruct (Z.ltb_spec i lo); [lia|]. destruct (Z.ltb_spec hi i); [lia|].
  cbn [orb obind]. apply write_same_word. rewrite word_of_u32; auto.
Qed.

Lemma int_set_out : forall l sg b lo hi a rest d o bb i, adapt_from l a d = Ok i -> ~ (lo <= i <= hi)%Z ->
  int_set_dbl l (PInt sg b lo hi) (a :: rest) d o bb = Err.
Proof.
  intros l sg b lo hi a rest d o bb i H Hi. unfold int_set_dbl, int_of_dbl. rewrite H. cbn [obind]. destruct (Z.ltb_spec i lo); [reflexivity|].
  destruct (Z.ltb_spec hi i); [reflexivity|lia].
Qed.

Lemma int_set_inv : forall l sg b lo hi a rest d o bb bb', size_ok b -> int_set_dbl l (PInt sg b lo hi) (a :: rest) d o bb = Ok bb' ->
  exists i, adapt_from l a d = Ok i /\ (lo <= i <= hi)%Z /\ has_value b o bb' i /\ only_changed b o bb bb'.
Proof.
  intros l sg b lo hi a rest d o bb bb' Hb H. pose proof H as H0. unfold int_set_dbl, int_of_dbl in H0.
  destruct (adapt_from l a d) as [i| | |] eqn:E; try discriminate. cbn [obind] in H0. destruct ((i <? lo)%Z || (hi <? i)%Z) eqn:R; [discriminate|].
  apply orb_false_iff in R. destruct R as [R1 R2]. apply Z.ltb_ge in R1, R2. cbn [obind] in H0. apply bb_write_int_Ok in H0. destruct H0 as [H0 _].
  exists i. split; [auto|]. split; [lia|]. destruct (int_set_value l sg b lo hi a rest d o bb i Hb H0 E (conj R1 R2)) as (bb2 & A & B). rewrite H in A. injection A as ->. exact B.
Qed.

Lemma int_get_value : forall l sg b lo hi a rest o bb v, size_ok b -> (width_lo sg b <= v <= width_hi sg b)%Z -> has_value b o bb v ->
  int_get_dbl l (PInt sg b lo hi) (a :: rest) o bb = Ok (adapt_to l a v).
Proof.
  intros l sg b lo hi a rest o bb v Hb Hv V. unfold int_get_dbl, int_to_dbl. unfold has_value in V. rewrite V. cbn [obind]. f_equal. f_equal.
  destruct sg.
  - rewrite sign_extend_ct by auto. rewrite <- (two_compl_word b v) at 2; [|destruct Hb as [ | [ | ]]; subst; lia|auto]. unfold word_of. rewrite Zmod_mod. reflexivity.
  - apply word_of_small. unfold width_lo, width_hi in Hv. lia.
Qed.

Lemma one_value : forall sg b o bb v w, size_ok b -> (width_lo sg b <= v <= width_hi sg b)%Z -> (width_lo sg b <= w <= width_hi sg b)%Z ->
  has_value b o bb v -> has_value b o bb w -> v = w.
Proof.
  intros sg b o bb v w Hb Hv Hw V W. unfold has_value in *. rewrite V in W. injection W as E. destruct sg.
  - rewrite <- (two_compl_word b v), <- (two_compl_word b w), E; auto; apply size_ok_pos; auto.
  - unfold width_lo, width_hi in *. rewrite !word_of_small in E by lia. auto.
Qed.

Lemma is_double_comp : forall p q, is_double p -> q == p -> is_double q.
Proof. intros p q (m & e & A & B) H. exists m, e. split; [rewrite H; exact A|exact B]. Qed.

Lemma linear_from_exact : forall off num den d q, (- 2 ^ 31 <= off <= 2 ^ 31 - 1)%Z -> slope_ok num -> slope_ok den -> d_val d = Some q ->
  Qabs (q * num / den) <= inject_Z (2 ^ 62) -> is_double (q * num) -> is_double (q * num / den) ->
  linear_from off num den d = Ok (q_trunc (q * num / den) + off)%Z.
Proof.
  intros off num den d q Ho Hn Hd E B D1 D2. assert (X : Qabs (q * num) <= pow2 500).
  { setoid_replace (q * num) with (q * num / den * den) by (field; apply slope_nz; auto).
    apply (Qle_trans _ (inject_Z (2 ^ 62) * Qpower 2 400)); [apply Qmul_abs_le; auto|vm_compute; discriminate]. }
  destruct (scaled_val d num den q E Hn Hd X) as (y & Y & Z).
  assert (K : y == q * num / den). { rewrite Z, <- (round64_exact _ D2). apply round64_comp. rewrite (round64_exact _ D1). reflexivity. }
  rewrite (linear_from_val off num den d y Ho Y); [rewrite (q_trunc_comp _ _ K); reflexivity|]. rewrite K. eapply Qle_trans; [exact B|vm_compute; discriminate].
Qed.
