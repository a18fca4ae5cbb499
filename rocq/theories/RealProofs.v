(** Proofs about the rational model of floating point values. *)
From Coq Require Import List Arith ZArith QArith Qround Qabs Qpower Bool Ascii String Lia Lqa Setoid.
From Verif Require Import Base BaseProofs TextModel TextSpec TextProofs RealModel RealSpec.
Import ListNotations.
Open Scope Q_scope.

(** ** Rationals *)

Lemma inject_Z_le : forall a b, (a <= b)%Z <-> inject_Z a <= inject_Z b.
Proof. intros. rewrite <- Zle_Qle. tauto. Qed.
Lemma inject_Z_lt : forall a b, (a < b)%Z <-> inject_Z a < inject_Z b.
Proof. intros. rewrite <- Zlt_Qlt. tauto. Qed.

Lemma Qfloor_spec : forall q, inject_Z (Qfloor q) <= q /\ q < inject_Z (Qfloor q) + 1.
Proof. intros. split; [apply Qfloor_le|]. pose proof (Qlt_floor q). rewrite inject_Z_plus in H. auto. Qed.

Lemma Qfloor_unique : forall q z, inject_Z z <= q -> q < inject_Z z + 1 -> Qfloor q = z.
Proof.
  intros q z H1 H2. destruct (Qfloor_spec q) as [F1 F2].
  assert (z < Qfloor q + 1)%Z by (apply (proj2 (inject_Z_lt _ _)); rewrite inject_Z_plus; change (inject_Z 1) with 1; lra).
  assert (Qfloor q < z + 1)%Z by (apply (proj2 (inject_Z_lt _ _)); rewrite inject_Z_plus; change (inject_Z 1) with 1; lra). lia.
Qed.

(** ** Rounding to an integer *)

Lemma round_away_error : forall q, Qabs (inject_Z (round_away q) - q) <= 1 # 2.
Proof.
  intros q. unfold round_away. destruct (Qle_bool 0 q).
  - destruct (Qfloor_spec (q + (1 # 2))). apply Qabs_Qle_condition. lra.
  - destruct (Qfloor_spec (- q + (1 # 2))). rewrite inject_Z_opp. apply Qabs_Qle_condition. lra.
Qed.

Lemma round_away_comp : forall p q, p == q -> round_away p = round_away q.
Proof.
  intros p q H. unfold round_away. rewrite (Qfloor_comp (p + (1 # 2)) (q + (1 # 2))) by (rewrite H; reflexivity).
  rewrite (Qfloor_comp (- p + (1 # 2)) (- q + (1 # 2))) by (rewrite H; reflexivity).
  assert (Qle_bool 0 p = Qle_bool 0 q) as ->; auto. rewrite H. reflexivity.
Qed.

Lemma round_away_int : forall z, round_away (inject_Z z) = z.
Proof.
  intros z. unfold round_away. destruct (Qle_bool 0 (inject_Z z)).
  - apply Qfloor_unique; lra.
  - rewrite (Qfloor_unique _ (- z)); try (rewrite inject_Z_opp; lra). lia.
Qed.

(** Integer bounds are kept. *)
Lemma round_away_bounds : forall q a b, inject_Z a <= q <= inject_Z b -> (a <= round_away q <= b)%Z.
Proof.
  intros q a b [H1 H2]. pose proof (round_away_error q) as H. apply Qabs_Qle_condition in H.
  destruct H as [E1 E2].
  split.
  - assert (a - 1 < round_away q)%Z; [|lia]. apply (proj2 (inject_Z_lt _ _)). unfold Z.sub. rewrite inject_Z_plus.
    change (inject_Z (- (1))) with (-(1)). lra.
  - assert (round_away q < b + 1)%Z; [|lia]. apply (proj2 (inject_Z_lt _ _)). rewrite inject_Z_plus.
    change (inject_Z 1) with 1. lra.
Qed.

Lemma round_even_error : forall q, Qabs (inject_Z (round_even q) - q) <= 1 # 2.
Proof.
  intros q. unfold round_even. destruct (Qfloor_spec q) as [F1 F2].
  destruct (Qcompare (q - inject_Z (Qfloor q)) (1 # 2)) eqn:E.
  - apply Qeq_alt in E. destruct (Z.even (Qfloor q)); rewrite ?inject_Z_plus; apply Qabs_Qle_condition;
      change (inject_Z 1) with 1; lra.
  - apply Qlt_alt in E. apply Qabs_Qle_condition. lra.
  - apply Qgt_alt in E. rewrite inject_Z_plus. apply Qabs_Qle_condition. change (inject_Z 1) with 1. lra.
Qed.

Lemma round_even_comp : forall p q, p == q -> round_even p = round_even q.
Proof.
  intros p q H. unfold round_even. rewrite (Qfloor_comp p q H).
  assert (Qcompare (p - inject_Z (Qfloor q)) (1 # 2) = Qcompare (q - inject_Z (Qfloor q)) (1 # 2)) as ->; auto.
  rewrite H. reflexivity.
Qed.

Lemma round_even_int : forall z, round_even (inject_Z z) = z.
Proof.
  intros z. unfold round_even. rewrite Qfloor_Z.
  assert (inject_Z z - inject_Z z == 0) as E by ring.
  assert (Qcompare (inject_Z z - inject_Z z) (1 # 2) = Lt) as ->; auto. apply Qlt_alt. rewrite E. reflexivity.
Qed.

Lemma round_even_bounds : forall q a b, inject_Z a <= q <= inject_Z b -> (a <= round_even q <= b)%Z.
Proof.
  intros q a b [H1 H2]. pose proof (round_even_error q) as H. apply Qabs_Qle_condition in H.
  destruct H as [E1 E2].
  split.
  - assert (a - 1 < round_even q)%Z; [|lia]. apply (proj2 (inject_Z_lt _ _)). unfold Z.sub. rewrite inject_Z_plus.
    change (inject_Z (- (1))) with (-(1)). lra.
  - assert (round_even q < b + 1)%Z; [|lia]. apply (proj2 (inject_Z_lt _ _)). rewrite inject_Z_plus.
    change (inject_Z 1) with 1. lra.
Qed.

(** ** Powers of two *)

Lemma pow2_pos : forall e, 0 < pow2 e.
Proof. intros. unfold pow2. apply Qpower_0_lt. reflexivity. Qed.

Lemma pow2_nz : forall e, ~ pow2 e == 0.
Proof. intros e H. pose proof (pow2_pos e). rewrite H in H0. inversion H0. Qed.

Lemma pow2_plus : forall a b, pow2 (a + b) == pow2 a * pow2 b.
Proof. intros. unfold pow2. apply Qpower_plus. discriminate. Qed.

Lemma pow2_Z : forall e, (0 <= e)%Z -> pow2 e == inject_Z (2 ^ e).
Proof. intros e H. unfold pow2. rewrite Zpower_Qpower by auto. reflexivity. Qed.

Lemma pow2_opp : forall e, pow2 e * pow2 (- e) == 1.
Proof. intros. rewrite <- pow2_plus. replace (e + - e)%Z with 0%Z by lia. reflexivity. Qed.

Lemma pow2_mono : forall a b, (a <= b)%Z -> pow2 a <= pow2 b.
Proof.
  intros a b H. replace b with (a + (b - a))%Z by lia. rewrite pow2_plus.
  assert (1 <= pow2 (b - a)).
  { rewrite pow2_Z by lia. change 1 with (inject_Z 1). apply (proj1 (inject_Z_le _ _)).
    assert (0 < 2 ^ (b - a))%Z by (apply Z.pow_pos_nonneg; lia). lia. }
  pose proof (pow2_pos a). rewrite <- (Qmult_1_r (pow2 a)) at 1. apply Qmult_le_l; auto.
Qed.

Lemma pow2_lt_inv : forall a b, pow2 a < pow2 b -> (a < b)%Z.
Proof.
  intros a b H. destruct (Z.lt_ge_cases a b); auto. apply pow2_mono in H0. exfalso. apply (Qlt_not_le _ _ H H0).
Qed.

(** ** Logarithm *)

Lemma qlog2_spec : forall q, 0 < q -> pow2 (qlog2 q) <= q /\ q < pow2 (qlog2 q + 1).
Proof.
  intros [n d] H. unfold qlog2. cbn [Qnum Qden].
  assert (0 < n)%Z as Hn by (unfold Qlt in H; simpl in H; lia).
  destruct (Z.log2_spec n Hn) as [L1 L2]. destruct (Z.log2_spec (Zpos d) ltac:(lia)) as [D1 D2].
  set (ln := Z.log2 n) in *. set (ld := Z.log2 (Zpos d)) in *.
  assert (0 <= ln)%Z by apply Z.log2_nonneg. assert (0 <= ld)%Z by apply Z.log2_nonneg.
  assert (n # d == inject_Z n * / inject_Z (Zpos d)) as Eq by (rewrite Qmake_Qdiv; reflexivity).
  assert (0 < inject_Z (Zpos d)) as Hd by (change 0 with (inject_Z 0); apply (proj1 (inject_Z_lt _ _)); lia).
  assert (pow2 ln <= inject_Z n /\ inject_Z n < pow2 (ln + 1)) as [A1 A2].
  { rewrite !pow2_Z by lia. split; [apply (proj1 (inject_Z_le _ _)); auto|apply (proj1 (inject_Z_lt _ _)); rewrite Z.add_1_r; auto]. }
  assert (pow2 ld <= inject_Z (Zpos d) /\ inject_Z (Zpos d) < pow2 (ld + 1)) as [B1 B2].
  { rewrite !pow2_Z by lia. split; [apply (proj1 (inject_Z_le _ _)); auto|apply (proj1 (inject_Z_lt _ _)); rewrite Z.add_1_r; auto]. }
  assert (n # d < pow2 (ln - ld + 1)) as U.
  { rewrite Eq. apply (Qmult_lt_r _ _ (inject_Z (Zpos d))); auto.
    rewrite <- Qmult_assoc, (Qmult_comm (/ _)), Qmult_inv_r, Qmult_1_r by lra.
    apply Qlt_le_trans with (pow2 (ln + 1)); auto.
    replace (ln + 1)%Z with ((ln - ld + 1) + ld)%Z by lia. rewrite pow2_plus.
    apply Qmult_le_l; auto. apply pow2_pos. }
  assert (pow2 (ln - ld - 1) <= n # d) as L.
  { rewrite Eq. apply (Qmult_le_r _ _ (inject_Z (Zpos d))); auto.
    rewrite <- Qmult_assoc, (Qmult_comm (/ _)), Qmult_inv_r, Qmult_1_r by lra.
    apply Qle_trans with (pow2 ln); auto.
    replace ln with ((ln - ld - 1) + (ld + 1))%Z at 2 by lia. rewrite pow2_plus.
    apply Qmult_le_l; [apply pow2_pos|lra]. }
  destruct (Qle_bool (pow2 (ln - ld)) (n # d)) eqn:E.
  - apply Qle_bool_iff in E. auto.
  - split; auto. replace (ln - ld - 1 + 1)%Z with (ln - ld)%Z by lia.
    apply Qnot_le_lt. intros K. apply Qle_bool_iff in K. congruence.
Qed.

Lemma qlog2_unique : forall q e, pow2 e <= q -> q < pow2 (e + 1) -> qlog2 q = e.
Proof.
  intros q e H1 H2. assert (0 < q) as Hq by (pose proof (pow2_pos e); lra).
  destruct (qlog2_spec q Hq) as [L1 L2].
  assert (pow2 e < pow2 (qlog2 q + 1)) as A by lra. assert (pow2 (qlog2 q) < pow2 (e + 1)) as B by lra.
  apply pow2_lt_inv in A. apply pow2_lt_inv in B. lia.
Qed.

Lemma qlog2_comp : forall p q, 0 < p -> p == q -> qlog2 p = qlog2 q.
Proof.
  intros p q Hp H. destruct (qlog2_spec p Hp) as [A B]. symmetry. apply qlog2_unique; rewrite <- H; auto.
Qed.

(** ** Rounding to a floating point format *)

Definition fp_exp (prec emin : Z) (q : Q) : Z := Z.max emin (qlog2 (Qabs q) - prec + 1).

Lemma round_fp_nz : forall prec emin q, ~ q == 0 ->
  round_fp prec emin q
  = inject_Z (round_even (q * pow2 (- fp_exp prec emin q))) * pow2 (fp_exp prec emin q).
Proof.
  intros prec emin q H. unfold round_fp. destruct (Qeq_bool q 0) eqn:E; [apply Qeq_bool_iff in E; tauto|reflexivity].
Qed.

Lemma Qabs_pos_nz : forall q, ~ q == 0 -> 0 < Qabs q.
Proof.
  intros q H. destruct (Qlt_le_dec 0 (Qabs q)); auto. exfalso. apply H.
  pose proof (Qabs_nonneg q). apply Qabs_Qle_condition in q0. lra.
Qed.

Lemma round_fp_comp : forall prec emin p q, p == q -> round_fp prec emin p == round_fp prec emin q.
Proof.
  intros prec emin p q H. destruct (Qeq_dec p 0) as [Z|NZ].
  - unfold round_fp. assert (Qeq_bool p 0 = true) as -> by (apply Qeq_bool_iff; auto).
    assert (Qeq_bool q 0 = true) as -> by (apply Qeq_bool_iff; rewrite <- H; auto). reflexivity.
  - rewrite (round_fp_nz _ _ p NZ). rewrite (round_fp_nz _ _ q) by (rewrite <- H; auto).
    assert (fp_exp prec emin p = fp_exp prec emin q) as ->.
    { unfold fp_exp. rewrite (qlog2_comp (Qabs p) (Qabs q)); auto; [apply Qabs_pos_nz; auto|rewrite H; reflexivity]. }
    rewrite (round_even_comp (p * pow2 (- fp_exp prec emin q)) (q * pow2 (- fp_exp prec emin q))) by (rewrite H; reflexivity).
    reflexivity.
Qed.

(** The error is at most half a unit in the last place. *)
Lemma round_fp_error : forall prec emin q, ~ q == 0 ->
  Qabs (round_fp prec emin q - q) <= (1 # 2) * pow2 (fp_exp prec emin q).
Proof.
  intros prec emin q H. rewrite round_fp_nz by auto. set (e := fp_exp prec emin q).
  pose proof (round_even_error (q * pow2 (- e))) as E.
  assert (inject_Z (round_even (q * pow2 (- e))) * pow2 e - q
          == (inject_Z (round_even (q * pow2 (- e))) - q * pow2 (- e)) * pow2 e) as ->.
  { pose proof (pow2_opp e). ring_simplify. rewrite <- (Qmult_1_r q) at 2. rewrite <- H0. ring. }
  rewrite Qabs_Qmult, (Qabs_pos (pow2 e)) by (apply Qlt_le_weak, pow2_pos).
  apply Qmult_le_r; auto. apply pow2_pos.
Qed.

Lemma round_fp_rel_error : forall prec emin q,
  Qabs (round_fp prec emin q - q) <= Qabs q * pow2 (- prec) \/ Qabs (round_fp prec emin q - q) <= pow2 (emin - 1).
Proof.
  intros prec emin q. destruct (Qeq_dec q 0) as [Z|NZ].
  - left. assert (round_fp prec emin q == 0) as E.
    { unfold round_fp. assert (Qeq_bool q 0 = true) as -> by (apply Qeq_bool_iff; auto). reflexivity. }
    rewrite E, Z. unfold Qminus. simpl. rewrite Qmult_0_l. apply Qle_refl.
  - pose proof (round_fp_error prec emin q NZ) as E. unfold fp_exp in E.
    destruct (qlog2_spec (Qabs q) (Qabs_pos_nz q NZ)) as [L _].
    destruct (Z.max_spec emin (qlog2 (Qabs q) - prec + 1)) as [[_ M]|[_ M]]; rewrite M in E.
    + left. eapply Qle_trans; [exact E|].
      assert ((1 # 2) * pow2 (qlog2 (Qabs q) - prec + 1) == pow2 (qlog2 (Qabs q)) * pow2 (- prec)) as ->.
      { replace (qlog2 (Qabs q) - prec + 1)%Z with (qlog2 (Qabs q) + - prec + 1)%Z by lia.
        rewrite !pow2_plus. change (pow2 1) with 2. ring. }
      apply Qmult_le_r; auto. apply pow2_pos.
    + right. eapply Qle_trans; [exact E|].
      replace emin with (emin - 1 + 1)%Z at 1 by lia. rewrite pow2_plus. change (pow2 1) with 2.
      apply Qle_lteq. right. ring.
Qed.

(** Numbers of the format are left alone. *)
Lemma round_fp_exact : forall prec emin k e q, q == inject_Z k * pow2 e -> (emin <= e)%Z -> (Z.abs k < 2 ^ prec)%Z ->
  (0 <= prec)%Z -> round_fp prec emin q == q.
Proof.
  intros prec emin k e q Hq He Hk Hp. destruct (Qeq_dec q 0) as [Z|NZ].
  - unfold round_fp. assert (Qeq_bool q 0 = true) as -> by (apply Qeq_bool_iff; auto). symmetry. auto.
  - rewrite round_fp_nz by auto. set (x := fp_exp prec emin q).
    assert (x <= e)%Z as Hx.
    { unfold x, fp_exp. apply Z.max_lub; auto.
      destruct (qlog2_spec (Qabs q) (Qabs_pos_nz q NZ)) as [L _].
      assert (Qabs q < pow2 (prec + e)) as U.
      { rewrite Hq, Qabs_Qmult, (Qabs_pos (pow2 e)) by (apply Qlt_le_weak, pow2_pos). rewrite pow2_plus.
        apply Qmult_lt_r; [apply pow2_pos|]. rewrite pow2_Z by auto.
        change (Qabs (inject_Z k)) with (inject_Z (Z.abs k)). apply (proj1 (inject_Z_lt _ _)). auto. }
      assert (pow2 (qlog2 (Qabs q)) < pow2 (prec + e)) as K by lra. apply pow2_lt_inv in K. lia. }
    assert (q * pow2 (- x) == inject_Z (k * 2 ^ (e - x))) as E.
    { rewrite Hq, inject_Z_mult, <- pow2_Z by lia. replace (e - x)%Z with (e + - x)%Z by lia. rewrite pow2_plus. ring. }
    rewrite (round_even_comp _ _ E), round_even_int, <- E, <- Qmult_assoc, (Qmult_comm (pow2 (- x))), pow2_opp. ring.
Qed.

Lemma round_fp_pos : forall prec emin q, 0 <= q -> 0 <= round_fp prec emin q.
Proof.
  intros prec emin q H. destruct (Qeq_dec q 0) as [Z|NZ].
  - unfold round_fp. assert (Qeq_bool q 0 = true) as -> by (apply Qeq_bool_iff; auto). apply Qle_refl.
  - rewrite round_fp_nz by auto. apply Qmult_le_0_compat; [|apply Qlt_le_weak, pow2_pos].
    assert (0 <= q * pow2 (- fp_exp prec emin q)) as K by (apply Qmult_le_0_compat; auto; apply Qlt_le_weak, pow2_pos).
    change 0 with (inject_Z 0). apply (proj1 (inject_Z_le _ _)).
    assert (0 <= round_even (q * pow2 (- fp_exp prec emin q)) <= Qceiling (q * pow2 (- fp_exp prec emin q)))%Z; [|lia].
    apply round_even_bounds. split; auto. apply Qle_ceiling.
Qed.

(** ** Rounding gives the nearest number of the format *)

Lemma round_fp_format : forall prec emin q, (1 <= prec)%Z -> format_number prec emin (round_fp prec emin q).
Proof.
  intros prec emin q Hp. destruct (Qeq_dec q 0) as [Z|NZ].
  - exists 0%Z, emin. split; [|split; [|lia]].
    + unfold round_fp. assert (Qeq_bool q 0 = true) as -> by (apply Qeq_bool_iff; auto). ring.
    + simpl. apply Z.pow_pos_nonneg; lia.
  - rewrite round_fp_nz by auto. set (e := fp_exp prec emin q).
    destruct (qlog2_spec (Qabs q) (Qabs_pos_nz q NZ)) as [L U].
    assert (Qabs (q * pow2 (- e)) < pow2 prec) as B.
    { rewrite Qabs_Qmult, (Qabs_pos (pow2 (- e))) by (apply Qlt_le_weak, pow2_pos).
      apply Qlt_le_trans with (pow2 (qlog2 (Qabs q) + 1) * pow2 (- e)).
      - apply Qmult_lt_r; auto. apply pow2_pos.
      - rewrite <- pow2_plus. apply pow2_mono. unfold e, fp_exp. lia. }
    assert (Z.abs (round_even (q * pow2 (- e))) <= 2 ^ prec)%Z as K.
    { assert (- 2 ^ prec <= round_even (q * pow2 (- e)) <= 2 ^ prec)%Z; [|lia].
      assert (pow2 prec == inject_Z (2 ^ prec)) as P by (apply pow2_Z; lia). rewrite P in B. apply round_even_bounds. rewrite inject_Z_opp.
      apply Qlt_le_weak in B. apply Qabs_Qle_condition in B. auto. }
    destruct (Z.eq_dec (Z.abs (round_even (q * pow2 (- e)))) (2 ^ prec)) as [Ex|Nx].
    + (* carry to the next power of two *)
      exists (Z.sgn (round_even (q * pow2 (- e))) * 2 ^ (prec - 1))%Z, (e + 1)%Z.
      split; [|split].
      * set (z := round_even (q * pow2 (- e))) in *.
        assert (z = Z.sgn z * 2 ^ (prec - 1) * 2)%Z as Ez.
        { rewrite <- Z.mul_assoc. replace (2 ^ (prec - 1) * 2)%Z with (2 ^ prec)%Z.
          - rewrite <- Ex. rewrite Z.mul_comm. symmetry. apply Z.abs_sgn.
          - replace prec with (prec - 1 + 1)%Z at 1 by lia. rewrite Z.pow_add_r by lia. lia. }
        rewrite Ez at 1. rewrite inject_Z_mult. change (inject_Z 2) with 2. change (Qpower 2 (e + 1)) with (pow2 (e + 1)).
        rewrite pow2_plus. change (pow2 1) with 2. ring.
      * rewrite Z.abs_mul. assert (0 < 2 ^ (prec - 1))%Z by (apply Z.pow_pos_nonneg; lia).
        assert (2 ^ prec = 2 * 2 ^ (prec - 1))%Z by (replace prec with (Z.succ (prec - 1)) at 1 by lia; apply Z.pow_succ_r; lia).
        destruct (round_even (q * pow2 (- e))); simpl Z.sgn; simpl Z.abs; lia.
      * unfold e, fp_exp. lia.
    + exists (round_even (q * pow2 (- e))), e. split; [reflexivity|]. split; [lia|]. unfold e, fp_exp. lia.
Qed.

Lemma round_even_nearest : forall q z, Qabs (inject_Z (round_even q) - q) <= Qabs (inject_Z z - q).
Proof.
  intros q z. pose proof (round_even_error q) as E.
  destruct (Z.eq_dec z (round_even q)) as [->|N]; [apply Qle_refl|].
  apply Qle_trans with (1 # 2); auto.
  apply Qabs_Qle_condition in E. destruct E as [E1 E2].
  assert (z <= round_even q - 1 \/ round_even q + 1 <= z)%Z as [H|H] by lia; apply (proj1 (inject_Z_le _ _)) in H;
    unfold Z.sub in H; rewrite inject_Z_plus in H.
  - change (inject_Z (- (1))) with (-(1)) in H.
    apply Qle_trans with (- (inject_Z z - q)); [lra|]. rewrite <- Qabs_opp. apply Qle_Qabs.
  - change (inject_Z 1) with 1 in H. apply Qle_trans with (inject_Z z - q); [lra|]. apply Qle_Qabs.
Qed.

Lemma fp_exp_pow : forall prec emin q, ~ q == 0 -> (emin < fp_exp prec emin q)%Z ->
  pow2 (fp_exp prec emin q + prec - 1) <= Qabs q.
Proof.
  intros prec emin q NZ H. destruct (qlog2_spec (Qabs q) (Qabs_pos_nz q NZ)) as [L U]. unfold fp_exp in *.
  replace (Z.max emin (qlog2 (Qabs q) - prec + 1) + prec - 1)%Z with (qlog2 (Qabs q)) by lia. auto.
Qed.

Lemma round_fp_nearest : forall prec emin q r, (1 <= prec)%Z -> format_number prec emin r ->
  Qabs (round_fp prec emin q - q) <= Qabs (r - q).
Proof.
  intros prec emin q r Hp [k [e [Hr [Hk He]]]].
  destruct (Qeq_dec q 0) as [Z|NZ].
  { assert (round_fp prec emin q == 0) as ->.
    { unfold round_fp. assert (Qeq_bool q 0 = true) as -> by (apply Qeq_bool_iff; auto). reflexivity. }
    rewrite Z. apply Qabs_nonneg. }
  rewrite round_fp_nz by auto. set (x := fp_exp prec emin q).
  change (Qpower 2 e) with (pow2 e) in Hr.
  assert (forall p, Qabs (p * pow2 x - q) == Qabs (p - q * pow2 (- x)) * pow2 x) as Sc.
  { intros p. rewrite <- (Qabs_pos (pow2 x)) at 2 by (apply Qlt_le_weak, pow2_pos). rewrite <- Qabs_Qmult.
    assert ((p - q * pow2 (- x)) * pow2 x == p * pow2 x - q) as ->; [|reflexivity].
    pose proof (pow2_opp x). ring_simplify. setoid_replace (-1 * q * pow2 (- x) * pow2 x) with (- q * (pow2 x * pow2 (- x))) by ring.
    rewrite H. ring. }
  destruct (Z.le_gt_cases x e) as [Hx|Hx].
  - (* r is a multiple of 2^x *)
    assert (r == inject_Z (k * 2 ^ (e - x)) * pow2 x) as Er.
    { rewrite Hr, inject_Z_mult, <- pow2_Z by lia. replace e with ((e - x) + x)%Z at 1 by lia. rewrite pow2_plus. ring. }
    rewrite Er, !Sc. apply Qmult_le_r; [apply pow2_pos|]. apply round_even_nearest.
  - (* r is below the binade of q *)
    assert (pow2 (x + prec - 1) <= Qabs q) as Lq by (apply fp_exp_pow; auto; unfold x in *; lia).
    assert (Qabs r < pow2 (x + prec - 1)) as Ur.
    { rewrite Hr, Qabs_Qmult, (Qabs_pos (pow2 e)) by (apply Qlt_le_weak, pow2_pos).
      apply Qlt_le_trans with (pow2 prec * pow2 e).
      - apply Qmult_lt_r; [apply pow2_pos|]. rewrite pow2_Z by lia. change (Qabs (inject_Z k)) with (inject_Z (Z.abs k)).
        apply (proj1 (inject_Z_lt _ _)). auto.
      - rewrite <- pow2_plus. apply pow2_mono. lia. }
    (* the power of two between them is a better choice than r *)
    set (b := if Qle_bool 0 q then (2 ^ (prec - 1))%Z else (- 2 ^ (prec - 1))%Z).
    apply Qle_trans with (Qabs (inject_Z b * pow2 x - q)).
    + rewrite !Sc. apply Qmult_le_r; [apply pow2_pos|]. apply round_even_nearest.
    + assert (pow2 (x + prec - 1) == inject_Z (2 ^ (prec - 1)) * pow2 x) as Eb.
      { rewrite <- pow2_Z, <- pow2_plus by lia. replace (prec - 1 + x)%Z with (x + prec - 1)%Z by lia. reflexivity. }
      rewrite Eb in *. apply Qlt_le_weak in Ur. apply Qabs_Qle_condition in Ur. destruct Ur as [U1 U2].
      unfold b. destruct (Qle_bool 0 q) eqn:Eq.
      * apply Qle_bool_iff in Eq. rewrite (Qabs_pos q Eq) in Lq.
        rewrite Qabs_neg by lra. rewrite Qabs_neg by lra. lra.
      * assert (q <= 0) as Hq by (apply Qlt_le_weak, Qnot_le_lt; intros C; apply Qle_bool_iff in C; congruence).
        rewrite (Qabs_neg q Hq) in Lq. rewrite inject_Z_opp in *.
        rewrite Qabs_pos by lra. rewrite Qabs_pos by lra. lra.
Qed.

Lemma round_fp_is_nearest : forall prec emin q, (1 <= prec)%Z -> nearest_number prec emin q (round_fp prec emin q).
Proof.
  intros. split; [apply round_fp_format; auto|]. intros. apply round_fp_nearest; auto.
Qed.

(** ** Decimal text input *)

Lemma pow10_plus : forall a b, pow10 (a + b) == pow10 a * pow10 b.
Proof. intros. unfold pow10. apply Qpower_plus. discriminate. Qed.

Lemma pow10_Z : forall e, (0 <= e)%Z -> pow10 e == inject_Z (10 ^ e).
Proof. intros e H. unfold pow10. rewrite Zpower_Qpower by auto. reflexivity. Qed.

Lemma pow10_pos : forall e, 0 < pow10 e.
Proof. intros. unfold pow10. apply Qpower_0_lt. reflexivity. Qed.

(** A run of digits. *)
Lemma take_dec_run : forall s ds acc n rest, Forall2 dec_digit s ds ->
  (match rest with c :: _ => forall d, ~ dec_digit c d | [] => True end) ->
  take_dec acc n (s ++ rest) = (fold_left (fun a d => 10 * a + d)%Z ds acc, (n + List.length ds)%nat, rest).
Proof.
  intros s ds acc n rest H. revert acc n. induction H as [|c d s ds Hc H IH]; intros acc n Hr.
  - cbn [app fold_left List.length]. rewrite Nat.add_0_r. destruct rest as [|c rest]; auto.
    cbn [take_dec]. destruct (digit_val c) as [d|] eqn:E; auto.
    destruct (Z.ltb_spec d 10); auto. exfalso. apply (Hr d). apply digit_val_dec. auto.
  - cbn [app take_dec]. apply digit_val_dec in Hc. destruct Hc as [-> Hd].
    destruct (Z.ltb_spec d 10); [|lia]. rewrite IH by auto. cbn [fold_left List.length].
    replace (S n + List.length ds)%nat with (n + S (List.length ds))%nat by lia. auto.
Qed.

(** Every text begins with a maximal run of digits. *)
Lemma digits_prefix : forall s, exists s1 ds rest, s = s1 ++ rest /\ Forall2 dec_digit s1 ds
  /\ (match rest with c :: _ => forall d, ~ dec_digit c d | [] => True end).
Proof.
  induction s as [|c s [s1 [ds [rest [E [H K]]]]]].
  - exists [], [], []. auto.
  - destruct (digit_val c) as [d|] eqn:Ed.
    + destruct (Z.ltb_spec d 10).
      * exists (c :: s1), (d :: ds), rest. subst s. split; auto. split; auto. constructor; auto. apply digit_val_dec. auto.
      * exists [], [], (c :: s). split; auto. split; auto. intros e He. apply digit_val_dec in He. destruct He as [He1 He2]. rewrite Ed in He1. inversion He1; subst. lia.
    + exists [], [], (c :: s). split; auto. split; auto. intros e He. apply digit_val_dec in He. destruct He. congruence.
Qed.

Lemma dec_digit_not : forall c d, dec_digit c d ->
  is_space c = false /\ char_eqb c "-"%char = false /\ char_eqb c "+"%char = false /\ char_eqb c "."%char = false.
Proof.
  intros c d H. pose proof H as G. apply good10 in G. split; [eapply good_not_space; eauto|].
  unfold dec_digit in H. repeat split; apply char_eqb_neq; intros ->;
    [change (bval "-"%char) with 45%Z in H|change (bval "+"%char) with 43%Z in H|change (bval "."%char) with 46%Z in H]; lia.
Qed.

Lemma not_dec_digit : forall c, In c (lit "-+.eE") -> forall d, ~ dec_digit c d.
Proof.
  intros c H d K. unfold dec_digit in K. simpl in H.
  destruct H as [<-|[<-|[<-|[<-|[<-|[]]]]]].
  - change (bval "-"%char) with 45%Z in K. lia.
  - change (bval "+"%char) with 43%Z in K. lia.
  - change (bval "."%char) with 46%Z in K. lia.
  - change (bval "e"%char) with 101%Z in K. lia.
  - change (bval "E"%char) with 69%Z in K. lia.
Qed.

(** The optional sign. *)
Definition split_sign (s : str) : bool * str :=
  match s with
  | c :: r => if char_eqb c "-"%char then (true, r) else if char_eqb c "+"%char then (false, r) else (false, s)
  | [] => (false, [])
  end.

Lemma split_sign_spec : forall s neg r, split_sign s = (neg, r) -> exists sg, s = sg ++ r /\ sign_text neg sg.
Proof.
  intros [|c s] neg r H; unfold split_sign in H.
  - inversion H. exists []. split; auto. left; auto.
  - destruct (char_eqb c "-"%char) eqn:E1; [|destruct (char_eqb c "+"%char) eqn:E2]; inversion H; subst.
    + apply char_eqb_eq in E1. subst c. exists ["-"%char]. split; auto. reflexivity.
    + apply char_eqb_eq in E2. subst c. exists ["+"%char]. split; auto. right; auto.
    + exists []. split; auto. left; auto.
Qed.

Lemma split_sign_sign : forall sg neg r, sign_text neg sg ->
  (match r with c :: _ => char_eqb c "-"%char = false /\ char_eqb c "+"%char = false | [] => True end) ->
  split_sign (sg ++ r) = (neg, r).
Proof.
  intros sg [|] r H Hr; unfold sign_text in H.
  - subst sg. reflexivity.
  - destruct H as [->| ->]; [|reflexivity]. cbn [app]. destruct r as [|c r]; auto. destruct Hr as [E1 E2].
    unfold split_sign. rewrite E1, E2. auto.
Qed.

(** The mantissa: digits, point, digits. *)
Definition mantissa (s : str) : Z * nat * nat * str :=
  let '(ip, ni, s3) := take_dec 0 0 s in
  let '(m, nf, s4) := match s3 with
                      | c :: r => if char_eqb c "."%char then take_dec ip 0 r else (ip, 0%nat, s3)
                      | [] => (ip, 0%nat, [])
                      end in
  (m, ni, nf, s4).

Lemma positional_app : forall b l1 l2,
  positional b (l1 ++ l2) = fold_left (fun a d => b * a + d)%Z l2 (positional b l1).
Proof. intros. unfold positional. apply fold_left_app. Qed.

Lemma mantissa_run : forall s1 ds1 frac s2 ds2 rest, Forall2 dec_digit s1 ds1 -> Forall2 dec_digit s2 ds2 ->
  (frac = "."%char :: s2 \/ (frac = [] /\ s2 = [])) ->
  (match rest with c :: _ => (forall d, ~ dec_digit c d) /\ (frac = [] -> char_eqb c "."%char = false) | [] => True end) ->
  mantissa (s1 ++ frac ++ rest) = (positional 10 (ds1 ++ ds2), List.length ds1, List.length ds2, rest).
Proof.
  intros s1 ds1 frac s2 ds2 rest H1 H2 Hf Hr. unfold mantissa.
  rewrite (take_dec_run s1 ds1 0 0 (frac ++ rest) H1).
  - destruct Hf as [->|[-> ->]].
    + cbn [app]. change (char_eqb "." ".") with true. cbv iota beta.
      rewrite (take_dec_run s2 ds2 _ 0 rest H2); [|destruct rest; auto; apply Hr].
      rewrite positional_app. unfold positional. auto.
    + inversion H2; subst. cbn [app]. destruct rest as [|c rest].
      * rewrite app_nil_r. auto.
      * destruct Hr as [_ Hr]. rewrite Hr by auto. rewrite app_nil_r. auto.
  - destruct Hf as [->|[-> _]]; cbn [app].
    + apply not_dec_digit. simpl; auto.
    + destruct rest; auto. apply Hr.
Qed.

Lemma mantissa_spec : forall s m ni nf rest, mantissa s = (m, ni, nf, rest) ->
  exists s1 ds1 frac s2 ds2, s = s1 ++ frac ++ rest /\ Forall2 dec_digit s1 ds1 /\ Forall2 dec_digit s2 ds2
    /\ (frac = "."%char :: s2 \/ (frac = [] /\ s2 = [])) /\ m = positional 10 (ds1 ++ ds2)
    /\ ni = List.length ds1 /\ nf = List.length ds2.
Proof.
  intros s m ni nf rest H.
  destruct (digits_prefix s) as [s1 [ds1 [r1 [E1 [H1 K1]]]]].
  assert (forall frac s2 ds2 rest', s = s1 ++ frac ++ rest' -> Forall2 dec_digit s2 ds2 ->
    (frac = "."%char :: s2 \/ (frac = [] /\ s2 = [])) ->
    (match rest' with c :: _ => (forall d, ~ dec_digit c d) /\ (frac = [] -> char_eqb c "."%char = false) | [] => True end) ->
    exists s1 ds1 frac s2 ds2, s = s1 ++ frac ++ rest /\ Forall2 dec_digit s1 ds1 /\ Forall2 dec_digit s2 ds2
    /\ (frac = "."%char :: s2 \/ (frac = [] /\ s2 = [])) /\ m = positional 10 (ds1 ++ ds2)
    /\ ni = List.length ds1 /\ nf = List.length ds2) as Go.
  { intros frac s2 ds2 rest' Es H2 Hf Hr. pose proof (mantissa_run s1 ds1 frac s2 ds2 rest' H1 H2 Hf Hr) as R.
    rewrite <- Es, H in R. inversion R; subst m ni nf rest'. exists s1, ds1, frac, s2, ds2. auto 10. }
  destruct r1 as [|c r1].
  - apply (Go [] [] [] []); auto.
  - destruct (char_eqb c "."%char) eqn:Ec.
    + apply char_eqb_eq in Ec. subst c. destruct (digits_prefix r1) as [s2 [ds2 [r2 [E2 [H2 K2]]]]].
      apply (Go ("."%char :: s2) s2 ds2 r2); auto.
      * rewrite E1, E2. auto.
      * destruct r2; auto. split; auto. discriminate.
    + apply (Go [] [] [] (c :: r1)); auto.
Qed.

Lemma parse_decimal_eq : forall s, parse_decimal s =
  let '(neg, s2) := split_sign (skip_ws s) in
  let '(m, ni, nf, s4) := mantissa s2 in
  if (ni + nf =? 0)%nat then None
  else
    let scaled := (inject_Z m * pow10 (- Z.of_nat nf))%Q in
    match s4 with
    | [] => Some (neg, scaled)
    | c :: r =>
        if char_eqb c "e"%char || char_eqb c "E"%char then
          let '(eneg, r2) := split_sign r in
          let '(e, ne, r3) := take_dec 0 0 r2 in
          if (ne =? 0)%nat then None
          else match r3 with
               | [] => Some (neg, scaled * pow10 (if eneg then - e else e))%Q
               | _ => None
               end
        else None
    end.
Proof.
  intros s. unfold parse_decimal, mantissa. unfold split_sign at 1.
  destruct (match skip_ws s with [] => (false, []) | _ => _ end) as [neg s2].
  destruct (take_dec 0 0 s2) as [[ip ni] s3].
  destruct (match s3 with [] => (ip, 0%nat, []) | _ => _ end) as [[m nf] s4]. reflexivity.
Qed.

Lemma parse_decimal_complete : forall neg s q, real_text neg s q ->
  exists q', parse_decimal s = Some (neg, q') /\ q' == q.
Proof.
  intros neg s q [sg [s1 [ds1 [frac [s2 [ds2 [ex [e [Es [Hs [H1 [H2 [Hf [Hne [He Hq]]]]]]]]]]]]]]].
  assert (match s1 ++ frac ++ ex with
          | c :: _ => is_space c = false /\ char_eqb c "-"%char = false /\ char_eqb c "+"%char = false
          | [] => False end) as Hhd.
  { destruct H1 as [|c d s1 ds1 Hc H1]; cbn [app].
    - destruct Hf as [->|[-> ->]]; cbn [app]; [auto|]. inversion H2; subst. cbn in Hne. congruence.
    - apply dec_digit_not in Hc. tauto. }
  rewrite parse_decimal_eq. subst s.
  assert (skip_ws (sg ++ s1 ++ frac ++ ex) = sg ++ s1 ++ frac ++ ex) as ->.
  { unfold sign_text in Hs. destruct neg; [subst sg; reflexivity|]. destruct Hs as [->| ->]; [|reflexivity].
    cbn [app]. destruct (s1 ++ frac ++ ex); [destruct Hhd|]. apply skip_ws_head. apply Hhd. }
  rewrite (split_sign_sign sg neg _ Hs) by (destruct (s1 ++ frac ++ ex); tauto).
  assert (match ex with c :: _ => In c (lit "eE") | [] => True end) as Hex.
  { destruct He as [[-> _]|[c [sg' [n' [r [ds [[-> | ->] [-> _]]]]]]]]; simpl; auto. }
  rewrite (mantissa_run s1 ds1 frac s2 ds2 ex H1 H2 Hf).
  2:{ destruct ex as [|c ex]; auto. split; [apply not_dec_digit; simpl in *; intuition auto|].
      intros _. simpl in Hex. destruct Hex as [<-|[<-|[]]]; reflexivity. }
  assert ((List.length ds1 + List.length ds2 =? 0)%nat = false) as ->.
  { apply Nat.eqb_neq. rewrite <- app_length. destruct (ds1 ++ ds2); [congruence|]. cbn. lia. }
  cbv zeta. destruct He as [[-> ->]|[c [sg' [n' [r [ds [Hc [-> [Hs' [Hr [Hds ->]]]]]]]]]]].
  - eexists. split; [reflexivity|]. rewrite Hq. reflexivity.
  - assert (char_eqb c "e"%char || char_eqb c "E"%char = true)%bool as -> by (destruct Hc as [->| ->]; reflexivity).
    rewrite (split_sign_sign sg' n' r Hs').
    2:{ destruct Hr as [|c' d r ds Hd Hr]; auto. apply dec_digit_not in Hd. tauto. }
    pose proof (take_dec_run r ds 0 0 [] Hr I) as T. rewrite app_nil_r in T. rewrite T.
    assert ((0 + List.length ds =? 0)%nat = false) as -> by (apply Nat.eqb_neq; destruct ds; [congruence|cbn; lia]).
    eexists. split; [reflexivity|]. rewrite Hq. unfold pow10.
    change (fold_left (fun a d => 10 * a + d)%Z ds 0%Z) with (positional 10 ds).
    rewrite <- Qmult_assoc, <- Qpower_plus by discriminate.
    replace (- Z.of_nat (List.length ds2) + (if n' then - positional 10 ds else positional 10 ds))%Z
      with ((if n' then - positional 10 ds else positional 10 ds) - Z.of_nat (List.length ds2))%Z by lia.
    reflexivity.
Qed.

Lemma parse_decimal_sound : forall s neg q, parse_decimal s = Some (neg, q) ->
  exists ws s', s = ws ++ s' /\ Forall (fun c => is_space c = true) ws /\ real_text neg s' q.
Proof.
  intros s neg q H. rewrite parse_decimal_eq in H.
  destruct (skip_ws_inv s) as [ws [Es [Hws _]]]. exists ws, (skip_ws s). split; auto. split; auto.
  destruct (split_sign (skip_ws s)) as [neg' s2] eqn:Esg. apply split_sign_spec in Esg. destruct Esg as [sg [Esg Hsg]].
  destruct (mantissa s2) as [[[m ni] nf] s4] eqn:Em. apply mantissa_spec in Em.
  destruct Em as [s1 [ds1 [frac [sf [ds2 [E2 [H1 [H2 [Hf [-> [-> ->]]]]]]]]]]].
  destruct (_ =? _)%nat eqn:En; [discriminate|]. apply Nat.eqb_neq in En.
  assert (ds1 ++ ds2 <> []) as Hne by (intros C; apply app_eq_nil in C; destruct C; subst; apply En; auto).
  cbv zeta in H. rewrite Esg, E2. destruct s4 as [|c r].
  - inversion H; subst. exists sg, s1, ds1, frac, sf, ds2, [], 0%Z.
    do 6 (split; [auto|]). split; [left; auto|].
    unfold pow10. replace (0 - Z.of_nat (List.length ds2))%Z with (- Z.of_nat (List.length ds2))%Z by lia. reflexivity.
  - destruct (char_eqb c "e"%char || char_eqb c "E"%char)%bool eqn:Ec; [|discriminate].
    assert (c = "e"%char \/ c = "E"%char) as Hc.
    { apply orb_true_iff in Ec. destruct Ec as [Ec|Ec]; apply char_eqb_eq in Ec; auto. }
    destruct (split_sign r) as [eneg r2] eqn:Er. apply split_sign_spec in Er. destruct Er as [sg' [Er Hsg']].
    destruct (digits_prefix r2) as [t [ds [r3 [E3 [H3 K3]]]]]. rewrite E3, (take_dec_run t ds 0 0 r3 H3 K3) in H.
    destruct (_ =? _)%nat eqn:En'; [discriminate|]. apply Nat.eqb_neq in En'. destruct r3; [|discriminate].
    change (fold_left (fun a d => 10 * a + d)%Z ds 0%Z) with (positional 10 ds) in H.
    assert (neg' = neg) by congruence.
    assert (q = inject_Z (positional 10 (ds1 ++ ds2)) * pow10 (- Z.of_nat (List.length ds2))
              * pow10 (if eneg then - positional 10 ds else positional 10 ds)) by congruence.
    clear H. subst neg' q. rewrite app_nil_r in E3.
    exists sg, s1, ds1, frac, sf, ds2, (c :: r), (if eneg then - positional 10 ds else positional 10 ds)%Z.
    do 6 (split; [auto|]). split.
    + right. exists c, sg', eneg, t, ds. subst. repeat split; auto. intros ->. apply En'; auto.
    + unfold pow10.
      rewrite <- Qmult_assoc, <- Qpower_plus by discriminate.
      replace (- Z.of_nat (List.length ds2) + (if eneg then - positional 10 ds else positional 10 ds))%Z
        with ((if eneg then - positional 10 ds else positional 10 ds) - Z.of_nat (List.length ds2))%Z by lia.
      reflexivity.
Qed.

(** ** Conversion of a text to a double or a float *)

Lemma real_text_chars : forall neg s q c, real_text neg s q -> In c s ->
  (exists d, dec_digit c d) \/ In c (lit "-+.eE").
Proof.
  intros neg s q c [sg [s1 [ds1 [frac [s2 [ds2 [ex [e [Es [Hs [H1 [H2 [Hf [Hne [He Hq]]]]]]]]]]]]]]] Hc.
  assert (forall neg sg, sign_text neg sg -> In c sg -> In c (lit "-+.eE")) as Sg.
  { intros n g Hg Hi. unfold sign_text in Hg. destruct n; [subst g; simpl in *; tauto|].
    destruct Hg as [->| ->]; simpl in *; tauto. }
  assert (forall s ds, Forall2 dec_digit s ds -> In c s -> exists d, dec_digit c d) as Dg.
  { intros t ds Ht Hi. induction Ht; destruct Hi; subst; eauto. }
  subst s. rewrite !in_app_iff in Hc. destruct Hc as [Hc|[Hc|[Hc|Hc]]]; eauto.
  - destruct Hf as [->|[-> _]]; [|destruct Hc]. destruct Hc as [<-|Hc]; [right; simpl; tauto|eauto].
  - destruct He as [[-> _]|[x [sg' [n' [r [ds [Hx [-> [Hs' [Hr [Hds ->]]]]]]]]]]]; [destruct Hc|].
    destruct Hc as [<-|Hc]; [right; destruct Hx as [->| ->]; simpl; tauto|].
    rewrite in_app_iff in Hc. destruct Hc; eauto.
Qed.

Lemma real_text_not_rejected : forall neg s q, real_text neg s q ->
  existsb (in_chars convert_rejected) s = false
  /\ (match s with c0 :: c1 :: _ => char_eqb c0 "0"%char && char_eqb c1 "x"%char | _ => false end) = false.
Proof.
  intros neg s q H.
  assert (forall c, In c s -> in_chars convert_rejected c = false /\ char_eqb c "x"%char = false) as K.
  { intros c Hc. destruct (real_text_chars neg s q c H Hc) as [[d Hd]|Hd].
    - unfold dec_digit in Hd. split.
      + destruct (in_chars convert_rejected c) eqn:E; auto. apply in_chars_In in E. exfalso.
        assert (bval c <= 32)%Z; [|lia]. unfold convert_rejected in E. simpl in E.
        destruct E as [<-|[<-|[<-|[<-|[<-|[]]]]]]; vm_compute; discriminate.
      + apply char_eqb_neq. intros ->. change (bval "x"%char) with 120%Z in Hd. lia.
    - simpl in Hd. destruct Hd as [<-|[<-|[<-|[<-|[<-|[]]]]]]; split; reflexivity. }
  split.
  - destruct (existsb (in_chars convert_rejected) s) eqn:E; auto. apply existsb_exists in E.
    destruct E as [c [Hc E]]. apply K in Hc. destruct Hc. congruence.
  - destruct s as [|c0 [|c1 s]]; auto. destruct (K c1) as [_ ->]; [simpl; auto|]. apply andb_false_r.
Qed.

Lemma convert_real_complete : forall prec emin maxq neg s q, real_text neg s q -> round_fp prec emin q <= maxq ->
  exists r, convert_real prec emin maxq s = Some (neg, r) /\ r == round_fp prec emin q.
Proof.
  intros prec emin maxq neg s q H Hm. unfold convert_real.
  destruct (real_text_not_rejected neg s q H) as [E1 E2]. rewrite E1, E2.
  destruct (parse_decimal_complete neg s q H) as [q' [-> Hq]]. cbv zeta.
  pose proof (round_fp_comp prec emin q' q Hq) as Hr.
  assert (Qle_bool (round_fp prec emin q') maxq = true) as -> by (apply Qle_bool_iff; rewrite Hr; auto). eauto.
Qed.

Lemma convert_real_sound : forall prec emin maxq neg s r, ~ In formfeed s ->
  convert_real prec emin maxq s = Some (neg, r) ->
  exists q, real_text neg s q /\ r = round_fp prec emin q /\ r <= maxq.
Proof.
  intros prec emin maxq neg s r Hff H. unfold convert_real in H.
  destruct (existsb (in_chars convert_rejected) s) eqn:E1; [discriminate|].
  destruct (match s with [] => false | _ => _ end); [discriminate|].
  destruct (parse_decimal s) as [[neg' q]|] eqn:E; [|discriminate]. cbv zeta in H.
  destruct (Qle_bool (round_fp prec emin q) maxq) eqn:Em; [|discriminate]. inversion H; subst neg' r. clear H.
  apply parse_decimal_sound in E. destruct E as [ws [s' [Es [Hws Hr]]]].
  assert (ws = []) as ->.
  { destruct ws as [|w ws]; auto. exfalso. inversion Hws; subst. cbn [app existsb] in E1. apply orb_false_iff in E1.
    destruct E1 as [E1 _]. destruct (space_cases w H1) as [->|K]; [apply Hff; simpl; auto|]. apply in_chars_In in K. congruence. }
  cbn [app] in Es. subst s'. exists q. split; auto. split; auto. apply Qle_bool_iff. auto.
Qed.
