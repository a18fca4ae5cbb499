(** Proofs about floating point parameters. *)
From Coq Require Import List Arith ZArith QArith Qround Qabs Qpower Bool Ascii String Lia Lqa Setoid.
From Verif Require Import Base BaseProofs TextModel TextSpec TextProofs RealModel RealSpec RealProofs ParamTypeModel
  ParamTypeSpec BlackboardModel BlackboardProofs IntProofs FixProofs.
Import ListNotations.
Open Scope Z_scope.
Ltac Zify.zify_post_hook ::= Z.div_mod_to_equations.

(** ** binary32 words *)

Definition f32_word (neg : bool) (ex mant : Z) : Z := (if neg then 2 ^ 31 else 0) + ex * 2 ^ 23 + mant.

Lemma f32_word_fields : forall neg ex mant, 0 <= ex < 256 -> 0 <= mant < 2 ^ 23 ->
  f32_sign (f32_word neg ex mant) = neg /\ f32_exp (f32_word neg ex mant) = ex
  /\ f32_mant (f32_word neg ex mant) = mant /\ 0 <= f32_word neg ex mant < 2 ^ 32.
Proof.
  intros neg ex mant He Hm. unfold f32_word, f32_sign, f32_exp, f32_mant.
  change (2 ^ 31) with 2147483648 in *. change (2 ^ 32) with 4294967296. rewrite Z.shiftr_div_pow2 by lia.
  rewrite Z.testbit_eqb by lia. change (2 ^ 31) with 2147483648. change (2 ^ 23) with 8388608 in *.
  destruct neg; (split; [|split; [|split]]); lia.
Qed.

Lemma f32_word_of : forall u, 0 <= u < 2 ^ 32 ->
  u = f32_word (f32_sign u) (f32_exp u) (f32_mant u) /\ 0 <= f32_exp u < 256 /\ 0 <= f32_mant u < 2 ^ 23.
Proof.
  intros u Hu. unfold f32_word, f32_sign, f32_exp, f32_mant.
  rewrite Z.shiftr_div_pow2 by lia. rewrite Z.testbit_eqb by lia.
  change (2 ^ 31) with 2147483648 in *. change (2 ^ 32) with 4294967296 in *. change (2 ^ 23) with 8388608 in *.
  destruct (Z.eqb_spec (u / 2147483648 mod 2) 1); lia.
Qed.

Lemma f32_bits_comp : forall neg a b, (0 <= a)%Q -> (a == b)%Q -> f32_bits (neg, a) = f32_bits (neg, b).
Proof.
  intros neg a b Ha H. unfold f32_bits. cbn [fst snd].
  assert (Qeq_bool a 0 = Qeq_bool b 0) as -> by (rewrite H; reflexivity).
  destruct (Qeq_bool b 0) eqn:E; auto.
  assert (qlog2 a = qlog2 b) as ->.
  { apply qlog2_comp; auto. destruct (Qlt_le_dec 0 a); auto. exfalso.
    assert (b == 0)%Q as K by lra. apply Qeq_bool_iff in K. congruence. }
  rewrite (round_even_comp (a * _) (b * pow2 (- Z.max (-149) (qlog2 b - 23)))) by (rewrite H; reflexivity). auto.
Qed.

Lemma f32_mag_nonneg : forall u, (0 <= f32_mag u)%Q.
Proof.
  intros u. unfold f32_mag.
  assert (0 <= f32_mant u) by (unfold f32_mant; apply Z.mod_pos_bound; lia).
  destruct (f32_exp u =? 0); apply Qmult_le_0_compat; try (apply Qlt_le_weak, pow2_pos);
    change 0%Q with (inject_Z 0); apply (proj1 (inject_Z_le _ _)); lia.
Qed.

(** Magnitude of a word with given fields. *)
Definition mag_of (ex mant : Z) : Q :=
  if ex =? 0 then (inject_Z mant * pow2 (-149))%Q else (inject_Z (mant + 2 ^ 23) * pow2 (ex - 150))%Q.

Lemma int_log : forall k e j, 2 ^ j <= k < 2 ^ (j + 1) -> 0 <= j -> qlog2 (inject_Z k * pow2 e) = j + e.
Proof.
  intros k e j Hk Hj. apply qlog2_unique.
  - rewrite pow2_plus. apply Qmult_le_r; [apply pow2_pos|]. rewrite pow2_Z by lia. apply (proj1 (inject_Z_le _ _)). lia.
  - replace (j + e + 1) with (j + 1 + e) by lia. rewrite pow2_plus. apply Qmult_lt_r; [apply pow2_pos|].
    rewrite pow2_Z by lia. apply (proj1 (inject_Z_lt _ _)). lia.
Qed.

Lemma int_nz : forall k e, k <> 0 -> Qeq_bool (inject_Z k * pow2 e) 0 = false.
Proof.
  intros k e Hk. destruct (Qeq_bool (inject_Z k * pow2 e) 0) eqn:E; auto. apply Qeq_bool_iff in E.
  apply Qmult_integral in E. destruct E as [E|E]; [|apply pow2_nz in E; tauto].
  exfalso. apply Hk. apply (inject_Z_injective k 0). auto.
Qed.

Lemma scaled_back : forall k e x, round_even (inject_Z k * pow2 e * pow2 (- x)) = round_even (inject_Z k * pow2 (e - x)).
Proof.
  intros. apply round_even_comp. replace (e - x) with (e + - x) by lia. rewrite pow2_plus. ring.
Qed.

(** Encoding the magnitude of a finite word gives the word back. *)
Lemma f32_bits_mag : forall neg ex mant, 0 <= ex < 255 -> 0 <= mant < 2 ^ 23 ->
  f32_bits (neg, mag_of ex mant) = f32_word neg ex mant.
Proof.
  intros neg ex mant He Hm. unfold f32_bits, f32_word, mag_of. cbn [fst snd].
  destruct (Z.eqb_spec ex 0) as [->|Nz].
  - destruct (Z.eq_dec mant 0) as [->|Nm].
    + assert (Qeq_bool (inject_Z 0 * pow2 (-149)) 0 = true) as -> by (apply Qeq_bool_iff; ring). lia.
    + rewrite int_nz by auto.
      assert (qlog2 (inject_Z mant * pow2 (-149)) <= -127) as HL.
      { destruct (Z.log2_spec mant ltac:(lia)) as [L1 L2]. rewrite <- Z.add_1_r in L2.
        rewrite (int_log mant (-149) (Z.log2 mant)) by (auto; apply Z.log2_nonneg).
        assert (Z.log2 mant < 23); [|lia]. apply Z.log2_lt_pow2; lia. }
      rewrite Z.max_l by lia. rewrite scaled_back. change (-149 - -149) with 0.
      assert (round_even (inject_Z mant * pow2 0) = mant) as ->.
      { rewrite (round_even_comp _ (inject_Z mant)) by (change (pow2 0) with 1%Q; ring). apply round_even_int. }
      destruct (Z.ltb_spec mant (2 ^ 23)); lia.
  - rewrite int_nz by (change (2 ^ 23) with 8388608 in *; lia).
    rewrite (int_log (mant + 2 ^ 23) (ex - 150) 23).
    2:{ change (2 ^ 23) with 8388608 in *. change (2 ^ (23 + 1)) with 16777216. lia. } 2: lia.
    rewrite Z.max_r by lia. rewrite scaled_back. replace (ex - 150 - (23 + (ex - 150) - 23)) with 0 by lia.
    assert (round_even (inject_Z (mant + 2 ^ 23) * pow2 0) = mant + 2 ^ 23) as ->.
    { rewrite (round_even_comp _ (inject_Z (mant + 2 ^ 23))) by (change (pow2 0) with 1%Q; ring). apply round_even_int. }
    destruct (Z.ltb_spec (mant + 2 ^ 23) (2 ^ 23)); [lia|]. change (2 ^ 23) with 8388608 in *. lia.
Qed.

Lemma f32_mag_of : forall u, f32_mag u = mag_of (f32_exp u) (f32_mant u).
Proof. reflexivity. Qed.

Lemma f32_finite_spec : forall u, f32_finite u = true <-> f32_exp u <> 255.
Proof. intros u. unfold f32_finite. rewrite negb_true_iff, Z.eqb_neq. tauto. Qed.

Lemma f32_bits_word : forall u, 0 <= u < 2 ^ 32 -> f32_finite u = true -> f32_bits (f32_sign u, f32_mag u) = u.
Proof.
  intros u Hu Hf. destruct (f32_word_of u Hu) as [E [H1 H2]]. apply f32_finite_spec in Hf.
  rewrite f32_mag_of, f32_bits_mag by lia. auto.
Qed.

(** Encoding a number of the format. *)
Lemma f32_bits_number : forall neg r, format_number 24 (-149) r -> (0 <= r)%Q -> (r <= max32)%Q ->
  let u := f32_bits (neg, r) in
  0 <= u < 2 ^ 32 /\ f32_finite u = true /\ f32_sign u = neg /\ (f32_mag u == r)%Q.
Proof.
  intros neg r [k [e [Hr [Hk He]]]] H0 Hm u. unfold u, f32_bits. cbn [fst snd]. clear u.
  change (Qpower 2 e) with (pow2 e) in Hr.
  assert (forall ex mant, 0 <= ex < 255 -> 0 <= mant < 2 ^ 23 -> (mag_of ex mant == r)%Q ->
    let u := f32_word neg ex mant in
    0 <= u < 2 ^ 32 /\ f32_finite u = true /\ f32_sign u = neg /\ (f32_mag u == r)%Q) as Go.
  { intros ex mant Hx Hmt Hv u. destruct (f32_word_fields neg ex mant ltac:(lia) Hmt) as [F1 [F2 [F3 F4]]].
    split; auto. split; [apply f32_finite_spec; unfold u; lia|]. split; auto. unfold u. rewrite f32_mag_of, F2, F3. auto. }
  destruct (Qeq_bool r 0) eqn:Ez.
  - apply Qeq_bool_iff in Ez. replace ((if neg then 2 ^ 31 else 0) + 0) with (f32_word neg 0 0) by (unfold f32_word; lia).
    apply Go; try lia. unfold mag_of. cbn [Z.eqb]. rewrite Ez. ring.
  - assert (0 < r)%Q as Hp.
    { destruct (Qlt_le_dec 0 r); auto. assert (r == 0)%Q as K by lra. apply Qeq_bool_iff in K. congruence. }
    destruct (qlog2_spec r Hp) as [L U]. set (l := qlog2 r) in *.
    assert (l <= 127) as Hl.
    { assert (pow2 l < pow2 128)%Q as K.
      { apply Qle_lt_trans with max32; [lra|]. apply Qnot_le_lt. intros C. apply Qle_bool_iff in C. vm_compute in C. discriminate. }
      apply pow2_lt_inv in K. lia. }
    set (x := Z.max (-149) (l - 23)).
    assert (x <= e) as Hx.
    { unfold x. apply Z.max_lub; auto.
      assert (r < pow2 (24 + e))%Q as B.
      { rewrite Hr, pow2_plus. apply Qmult_lt_r; [apply pow2_pos|]. rewrite pow2_Z by lia. apply (proj1 (inject_Z_lt _ _)). lia. }
      assert (pow2 l < pow2 (24 + e))%Q as K by lra. apply pow2_lt_inv in K. lia. }
    set (z := k * 2 ^ (e - x)).
    assert (r == inject_Z z * pow2 x)%Q as Ez2.
    { unfold z. rewrite Hr, inject_Z_mult, <- pow2_Z by lia. rewrite <- Qmult_assoc, <- pow2_plus.
      replace (e - x + x) with e by lia. reflexivity. }
    assert (round_even (r * pow2 (- x)) = z) as ->.
    { rewrite (round_even_comp _ (inject_Z z)); [apply round_even_int|].
      rewrite Ez2, <- Qmult_assoc, pow2_opp. ring. }
    assert (0 < z) as Hz0.
    { apply (proj2 (inject_Z_lt _ _)). apply (Qmult_lt_r _ _ (pow2 x)); [apply pow2_pos|]. rewrite <- Ez2.
      change (inject_Z 0) with 0%Q. lra. }
    assert (z < 2 ^ 24) as Hz1.
    { apply (proj2 (inject_Z_lt _ _)). apply (Qmult_lt_r _ _ (pow2 x)); [apply pow2_pos|]. rewrite <- Ez2, <- pow2_Z by lia.
      rewrite <- pow2_plus. apply Qlt_le_trans with (pow2 (l + 1)); auto. apply pow2_mono. lia. }
    change (2 ^ 24) with 16777216 in Hz1.
    destruct (Z.ltb_spec z (2 ^ 23)) as [Hs|Hs].
    + assert (x = -149) as Ex.
      { destruct (Z.max_spec (-149) (l - 23)) as [[Hc Em]|[Hc Em]]; [|exact Em]. exfalso. fold x in Em.
        assert (pow2 l <= inject_Z z * pow2 x)%Q as K by (rewrite <- Ez2; auto).
        assert (inject_Z z * pow2 x < pow2 23 * pow2 x)%Q as K2.
        { apply Qmult_lt_r; [apply pow2_pos|]. rewrite pow2_Z by lia. apply (proj1 (inject_Z_lt _ _)). auto. }
        rewrite <- pow2_plus in K2. assert (pow2 l < pow2 (23 + x))%Q as K3 by lra. apply pow2_lt_inv in K3. lia. }
      replace ((if neg then 2 ^ 31 else 0) + z) with (f32_word neg 0 z) by (unfold f32_word; lia).
      apply Go; try lia. unfold mag_of. cbn [Z.eqb]. rewrite Ez2, Ex. reflexivity.
    + replace ((if neg then 2 ^ 31 else 0) + ((x + 149) * 2 ^ 23 + z)) with (f32_word neg (x + 150) (z - 2 ^ 23))
        by (unfold f32_word; change (2 ^ 23) with 8388608; lia).
      change (2 ^ 23) with 8388608 in *. apply Go; try lia. unfold mag_of.
      destruct (Z.eqb_spec (x + 150) 0); [lia|]. change (2 ^ 23) with 8388608. replace (z - 8388608 + 8388608) with z by lia.
      replace (x + 150 - 150) with x by lia. rewrite Ez2. reflexivity.
Qed.

(** ** Rounding of a double *)

Lemma zero_format : format_number 24 (-149) 0.
Proof. exists 0, 0. split; [reflexivity|]. split; [reflexivity|lia]. Qed.

Lemma max32_format : format_number 24 (-149) max32.
Proof. exists (2 ^ 24 - 1), 104. split; [vm_compute; reflexivity|]. split; [reflexivity|lia]. Qed.

Lemma opp_format : forall p e q, format_number p e q -> format_number p e (- q).
Proof.
  intros p e q [k [x [H1 [H2 H3]]]]. exists (- k), x. split; [rewrite H1, inject_Z_opp; ring|]. split; [lia|auto].
Qed.

Lemma round32_bounds : forall q, (- max32 <= q <= max32)%Q -> (- max32 <= round32 q <= max32)%Q.
Proof.
  intros q [H1 H2]. split.
  - pose proof (round_fp_nearest 24 (-149) q (- max32) ltac:(lia) (opp_format _ _ _ max32_format)) as N.
    fold round32 in N. rewrite (Qabs_neg (- max32 - q)) in N by lra.
    destruct (Qlt_le_dec (round32 q) (- max32)); auto. rewrite Qabs_neg in N by lra. lra.
  - pose proof (round_fp_nearest 24 (-149) q max32 ltac:(lia) max32_format) as N.
    fold round32 in N. rewrite (Qabs_pos (max32 - q)) in N by lra.
    destruct (Qlt_le_dec max32 (round32 q)); auto. rewrite Qabs_pos in N by lra. lra.
Qed.

Lemma round32_sign : forall q, ((0 <= q -> 0 <= round32 q) /\ (q < 0 -> round32 q <= 0))%Q.
Proof.
  intros q. pose proof (round_fp_nearest 24 (-149) q 0 ltac:(lia) zero_format) as N. fold round32 in N. split; intros H.
  - apply round_fp_pos. auto.
  - destruct (Qlt_le_dec 0 (round32 q)); auto. rewrite (Qabs_pos (0 - q)) in N by lra. rewrite Qabs_pos in N by lra. lra.
Qed.

(** Reading a word as a double. *)
Definition dbl_is (d : dbl) (q : Q) : Prop :=
  match d with DFin r => (r == q)%Q | DNegZero => (q == 0)%Q | _ => False end.

Lemma f32_to_dbl_is : forall u, 0 <= u < 2 ^ 32 -> f32_finite u = true -> dbl_is (f32_to_dbl u) (f32_value u).
Proof.
  intros u Hu Hf. unfold f32_to_dbl. rewrite Hf. destruct (f32_sign u && (u =? 2 ^ 31)) eqn:E; [|simpl; reflexivity].
  apply andb_true_iff in E. destruct E as [_ E]. apply Z.eqb_eq in E. subst u. vm_compute. reflexivity.
Qed.

(** The sign and magnitude stored for a double. *)
Lemma f32_of_double : forall q, (- max32 <= q <= max32)%Q ->
  let u := f32_bits (negb (Qle_bool 0 q), Qabs (round32 q)) in
  0 <= u < 2 ^ 32 /\ f32_finite u = true /\ (f32_value u == round32 q)%Q.
Proof.
  intros q Hq u. pose proof (round32_bounds q Hq) as B. destruct (round32_sign q) as [S1 S2].
  destruct (f32_bits_number (negb (Qle_bool 0 q)) (Qabs (round32 q))) as [H1 [H2 [H3 H4]]].
  - pose proof (round_fp_format 24 (-149) q ltac:(lia)) as F. fold round32 in F.
    destruct (Qlt_le_dec (round32 q) 0).
    + destruct (opp_format _ _ _ F) as [k [e [K1 K2]]]. exists k, e. split; auto. rewrite Qabs_neg by lra. auto.
    + destruct F as [k [e [K1 K2]]]. exists k, e. split; auto. rewrite Qabs_pos by lra. auto.
  - apply Qabs_nonneg.
  - apply Qabs_Qle_condition. lra.
  - fold u in H1, H2, H3, H4. split; auto. split; auto. unfold f32_value, signed_q. cbn [fst snd]. rewrite H3.
    destruct (Qle_bool 0 q) eqn:E; cbn [negb].
    + apply Qle_bool_iff in E. rewrite H4, Qabs_pos; [reflexivity|auto].
    + assert (q < 0)%Q as Hn by (apply Qnot_le_lt; intros C; apply Qle_bool_iff in C; congruence).
      rewrite H4, Qabs_neg by auto. ring.
Qed.

Lemma float_in_range_spec : forall a b q, float_in_range a b q = true <-> (a <= q /\ q <= b)%Q.
Proof. intros. unfold float_in_range. rewrite andb_true_iff, !Qle_bool_iff. tauto. Qed.

Lemma float_set_double : forall a b f q off bb, (off + 4 <= List.length bb)%nat ->
  (- max32 <= q <= max32)%Q -> (a <= round32 q /\ round32 q <= b)%Q ->
  exists bb' d, param_set_val (PFloat a b) f (UDbl (DFin q)) off bb = Ok bb'
    /\ param_get_val (PFloat a b) KDbl off bb' = Ok (UDbl d) /\ dbl_is d (round32 q)
    /\ List.length bb' = List.length bb
    /\ (forall i, (i < off \/ off + 4 <= i)%nat -> nth_error bb' i = nth_error bb i).
Proof.
  intros a b f q off bb Hoff Hq Hr. destruct (f32_of_double q Hq) as [U1 [U2 U3]].
  set (u := f32_bits (negb (Qle_bool 0 q), Qabs (round32 q))) in *.
  destruct (write_read_word bb u 4 off Hoff) as [bb' [W1 [W2 [W3 W4]]]].
  rewrite (word_of_small 4 u) in W3 by (change (2 ^ (8 * Z.of_nat 4)) with (2 ^ 32); auto).
  exists bb', (f32_to_dbl u). split; [|split; [|split; [|auto]]].
  - unfold param_set_val. cbn [to_bb_val pt_size]. unfold float_of_dbl.
    assert (Qle_bool (- max32) q && Qle_bool q max32 = true) as ->.
    { apply andb_true_iff. rewrite !Qle_bool_iff. auto. }
    cbv zeta. apply float_in_range_spec in Hr. rewrite Hr. cbn [obind]. auto.
  - unfold param_get_val. cbn [pt_size]. rewrite W3. auto.
  - pose proof (f32_to_dbl_is u U1 U2) as D. unfold dbl_is in *. destruct (f32_to_dbl u); auto; rewrite <- U3; auto.
Qed.

Lemma float_refuse_double : forall a b f d off bb,
  match d with
  | DFin q => ~ ((- max32 <= q <= max32) /\ (a <= round32 q /\ round32 q <= b))%Q
  | DNegZero => ~ (a <= 0 /\ 0 <= b)%Q
  | _ => True
  end -> param_set_val (PFloat a b) f (UDbl d) off bb = Err.
Proof.
  intros a b f d off bb H. unfold param_set_val. cbn [to_bb_val]. unfold float_of_dbl. destruct d as [q| |neg|]; auto.
  - destruct (Qle_bool (- max32) q && Qle_bool q max32) eqn:E; auto. cbv zeta.
    destruct (float_in_range a b (round32 q)) eqn:E2; auto. exfalso. apply H.
    apply andb_true_iff in E. rewrite !Qle_bool_iff in E. apply float_in_range_spec in E2. auto.
  - destruct (float_in_range a b 0) eqn:E; auto. apply float_in_range_spec in E. tauto.
Qed.

Lemma mag_bound : forall ex mant, 0 <= ex < 255 -> 0 <= mant < 2 ^ 23 -> (mag_of ex mant <= max32)%Q.
Proof.
  intros ex mant He Hm. unfold mag_of, max32. change (2 ^ 23) with 8388608 in *. destruct (Z.eqb_spec ex 0).
  - apply Qle_trans with (inject_Z 8388608 * pow2 (-149))%Q.
    + apply Qmult_le_r; [apply pow2_pos|]. apply (proj1 (inject_Z_le _ _)). lia.
    + apply Qle_bool_iff. vm_compute. reflexivity.
  - apply Qle_trans with (inject_Z (2 ^ 24 - 1) * pow2 (ex - 150))%Q.
    + apply Qmult_le_r; [apply pow2_pos|]. apply (proj1 (inject_Z_le _ _)). change (2 ^ 24) with 16777216. lia.
    + assert (pow2 24 - 1 == inject_Z (2 ^ 24 - 1))%Q as -> by (vm_compute; reflexivity).
      apply Qmult_le_l; [reflexivity|]. apply pow2_mono. lia.
Qed.

Lemma f32_value_exact : forall u, 0 <= u < 2 ^ 32 -> f32_finite u = true ->
  (round32 (f32_value u) == f32_value u /\ - max32 <= f32_value u <= max32)%Q.
Proof.
  intros u Hu Hf. destruct (f32_word_of u Hu) as [_ [H1 H2]]. apply f32_finite_spec in Hf.
  pose proof (f32_mag_nonneg u) as Hn. pose proof (mag_bound (f32_exp u) (f32_mant u) ltac:(lia) H2) as Hb.
  rewrite <- f32_mag_of in Hb. split.
  - assert (exists k e, (f32_mag u == inject_Z k * pow2 e)%Q /\ -149 <= e /\ Z.abs k < 2 ^ 24) as [k [e [Ek [He Hk]]]].
    { rewrite f32_mag_of. unfold mag_of. change (2 ^ 23) with 8388608 in *. change (2 ^ 24) with 16777216.
      destruct (Z.eqb_spec (f32_exp u) 0); eexists; eexists; (split; [reflexivity|]); lia. }
    unfold f32_value, signed_q. cbn [fst snd]. destruct (f32_sign u).
    + apply (round_fp_exact 24 (-149) (- k) e); try lia. rewrite Ek, inject_Z_opp. ring.
    + apply (round_fp_exact 24 (-149) k e); try lia. auto.
  - unfold f32_value, signed_q. cbn [fst snd]. destruct (f32_sign u); lra.
Qed.

Lemma float_write_back_double : forall a b f off bb u, bb_read_int bb 4 off = Ok u ->
  f32_finite u = true -> (a <= f32_value u /\ f32_value u <= b)%Q ->
  exists d, param_get_val (PFloat a b) KDbl off bb = Ok (UDbl d) /\ dbl_is d (f32_value u)
    /\ param_set_val (PFloat a b) f (UDbl d) off bb = Ok bb.
Proof.
  intros a b f off bb u Hr Hf Hv.
  assert (0 <= u < 2 ^ 32) as Hu.
  { apply bb_read_int_Ok in Hr. destruct Hr as [HL ->]. pose proof (le_decode_range (slice bb off 4)) as R.
    rewrite slice_length, pow256 in R by auto. exact R. }
  exists (f32_to_dbl u). split; [|split; [apply f32_to_dbl_is; auto|]].
  - unfold param_get_val. cbn [pt_size]. rewrite Hr. auto.
  - assert (to_bb_val (PFloat a b) f (UDbl (f32_to_dbl u)) = Ok u) as E.
    { cbn [to_bb_val]. unfold f32_to_dbl. rewrite Hf. destruct (f32_value_exact u Hu Hf) as [Ex [B1 B2]].
      destruct (f32_sign u && (u =? 2 ^ 31)) eqn:En.
      - apply andb_true_iff in En. destruct En as [_ En]. apply Z.eqb_eq in En. subst u. unfold float_of_dbl.
        assert (f32_value (2 ^ 31) == 0)%Q as E0 by (vm_compute; reflexivity). rewrite E0 in Hv.
        apply float_in_range_spec in Hv. rewrite Hv. auto.
      - unfold float_of_dbl.
        assert (Qle_bool (- max32) (f32_value u) && Qle_bool (f32_value u) max32 = true) as ->.
        { apply andb_true_iff. rewrite !Qle_bool_iff. auto. }
        cbv zeta. assert (float_in_range a b (round32 (f32_value u)) = true) as ->.
        { apply float_in_range_spec. rewrite Ex. auto. }
        f_equal. rewrite <- (f32_bits_word u Hu Hf) at 3.
        pose proof (f32_mag_nonneg u) as Hn.
        assert (negb (Qle_bool 0 (f32_value u)) = f32_sign u) as ->.
        { unfold f32_value, signed_q. cbn [fst snd]. destruct (f32_sign u) eqn:Es.
          - apply negb_true_iff. destruct (Qle_bool 0 (- f32_mag u)) eqn:Eq; auto. exfalso. apply Qle_bool_iff in Eq.
            assert (f32_mag u == 0)%Q as Z0 by lra.
            assert (f32_bits (true, f32_mag u) = 2 ^ 31) as Hbits.
            { unfold f32_bits. cbn [fst snd]. apply Qeq_bool_iff in Z0. rewrite Z0. reflexivity. }
            rewrite <- Es, f32_bits_word in Hbits by auto. subst u. cbn [andb] in En. rewrite Z.eqb_refl in En. discriminate.
          - apply negb_false_iff. apply Qle_bool_iff. auto. }
        apply f32_bits_comp; [apply Qabs_nonneg|]. rewrite Ex. unfold f32_value, signed_q. cbn [fst snd].
        destruct (f32_sign u); [rewrite Qabs_opp|]; apply Qabs_pos; auto. }
    unfold param_set_val. rewrite E. cbn [obind pt_size]. apply write_same_word. rewrite Hr, word_of_small; auto.
Qed.

(** ** Text *)

Lemma float_set_text : forall a b h s neg q off bb, (off + 4 <= List.length bb)%nat -> real_text neg s q ->
  (round32 q <= max32)%Q ->
  let r := if neg then (- round32 q)%Q else round32 q in
  (a <= r /\ r <= b)%Q ->
  exists bb' u, param_set_str (PFloat a b) (Fmt false h) s off bb = Ok bb'
    /\ bb_read_int bb' 4 off = Ok u /\ f32_finite u = true /\ (f32_value u == r)%Q
    /\ List.length bb' = List.length bb
    /\ (forall i, (i < off \/ off + 4 <= i)%nat -> nth_error bb' i = nth_error bb i).
Proof.
  intros a b h s neg q off bb Hoff Ht Hm r Hr.
  destruct (convert_real_complete 24 (-149) max32 neg s q Ht Hm) as [m [Em Hq]]. fold round32 in Hq.
  change (convert_real 24 (-149) max32 s) with (convert_float s) in Em.
  assert (0 <= q)%Q as Hq0.
  { destruct Ht as [sg [s1 [ds1 [frac [s2 [ds2 [ex [e [_ [_ [H1 [H2 [_ [_ [_ Hv]]]]]]]]]]]]]]]. rewrite Hv.
    apply Qmult_le_0_compat; [|apply Qlt_le_weak; apply pow10_pos].
    change 0%Q with (inject_Z 0). apply (proj1 (inject_Z_le _ _)).
    apply (positional_nonneg 10 (s1 ++ s2)); [lia|]. apply Forall2_app; apply Forall2_good10; auto. }
  assert (0 <= round32 q)%Q as Hp by (apply round32_sign; auto).
  destruct (f32_bits_number neg m) as [U1 [U2 [U3 U4]]].
  { destruct (round_fp_format 24 (-149) q ltac:(lia)) as [k [e [K1 K2]]]. exists k, e. split; auto. rewrite Hq. auto. }
  { rewrite Hq. auto. }
  { rewrite Hq. auto. }
  set (u := f32_bits (neg, m)) in *.
  destruct (write_read_word bb u 4 off Hoff) as [bb' [W1 [W2 [W3 W4]]]].
  rewrite (word_of_small 4 u) in W3 by (change (2 ^ (8 * Z.of_nat 4)) with (2 ^ 32); auto).
  assert (signed_q (neg, m) == r)%Q as Hs.
  { unfold signed_q, r. cbn [fst snd]. destruct neg; rewrite Hq; reflexivity. }
  exists bb', u. split; [|split; [auto|split; [auto|split; [|auto]]]].
  - unfold param_set_str. cbn [to_bb_str pt_size]. unfold float_of_str. rewrite (real_text_not_hex neg s q Ht).
    cbn [f_raw negb andb]. rewrite Em.
    assert (float_in_range a b (signed_q (neg, m)) = true) as -> by (apply float_in_range_spec; rewrite Hs; auto).
    cbn [obind]. auto.
  - rewrite <- Hs. unfold f32_value, signed_q. cbn [fst snd]. rewrite U3. destruct neg; rewrite U4; reflexivity.
Qed.

Lemma float_refuse_text : forall a b h s off bb, ~ In formfeed s ->
  (forall neg q, real_text neg s q -> (round32 q <= max32)%Q ->
     ~ (a <= (if neg then - round32 q else round32 q) /\ (if neg then - round32 q else round32 q) <= b)%Q) ->
  param_set_str (PFloat a b) (Fmt false h) s off bb = Err.
Proof.
  intros a b h s off bb Hff H. unfold param_set_str. cbn [to_bb_str]. unfold float_of_str. cbn [f_raw negb].
  rewrite andb_true_r. destruct (is_hexadecimal s); auto.
  destruct (convert_float s) as [[neg r]|] eqn:E; auto.
  apply convert_real_sound in E; auto. destruct E as [q [Hq [-> Hm]]].
  destruct (float_in_range a b (signed_q (neg, round_fp 24 (-149) q))) eqn:E2; auto.
  apply float_in_range_spec in E2. exfalso. apply (H neg q Hq Hm). unfold signed_q in E2. cbn [fst snd] in E2. auto.
Qed.

Lemma float_raw_text : forall a b h s off bb, (off + 4 <= List.length bb)%nat -> ~ In formfeed s ->
  (forall u, int_text s u -> ~ In "-"%char s -> 0 <= u < 2 ^ 32 -> f32_finite u = true ->
     (a <= f32_value u /\ f32_value u <= b)%Q ->
     exists bb', param_set_str (PFloat a b) (Fmt true h) s off bb = Ok bb' /\ bb_read_int bb' 4 off = Ok u
       /\ List.length bb' = List.length bb
       /\ (forall i, (i < off \/ off + 4 <= i)%nat -> nth_error bb' i = nth_error bb i))
  /\ ((forall u, int_text s u -> ~ In "-"%char s -> 0 <= u < 2 ^ 32 -> f32_finite u = true ->
         ~ (a <= f32_value u /\ f32_value u <= b)%Q) ->
      param_set_str (PFloat a b) (Fmt true h) s off bb = Err).
Proof.
  intros a b h s off bb Hoff Hff. unfold param_set_str. cbn [to_bb_str pt_size]. unfold float_of_str. cbn [f_raw negb].
  rewrite andb_false_r. change (2 ^ 32) with 4294967296. split.
  - intros u Ht Hm Hu Hf Hv.
    assert (convertTo t_uint32 s = Some u) as ->.
    { apply convertTo_spec; auto. split; auto. split; auto.
      change (ct_lo t_uint32) with 0. change (ct_hi t_uint32) with 4294967295. lia. }
    apply float_in_range_spec in Hv. rewrite Hf, Hv. cbn [andb obind].
    destruct (write_read_word bb u 4 off Hoff) as [bb' [W1 [W2 [W3 W4]]]].
    rewrite (word_of_small 4 u) in W3 by (change (2 ^ (8 * Z.of_nat 4)) with 4294967296; auto). eauto 10.
  - intros H. destruct (convertTo t_uint32 s) as [u|] eqn:E; auto. apply convertTo_spec in E; auto.
    destruct E as [Ht [Hr Hm]]. change (ct_lo t_uint32) with 0 in Hr. change (ct_hi t_uint32) with 4294967295 in Hr.
    destruct (f32_finite u && float_in_range a b (f32_value u)) eqn:E; auto. apply andb_true_iff in E. destruct E as [E1 E2].
    apply float_in_range_spec in E2. exfalso. apply (H u); auto. lia.
Qed.

Lemma float_raw_write_back : forall a b off bb u, bb_read_int bb 4 off = Ok u ->
  f32_finite u = true -> (a <= f32_value u /\ f32_value u <= b)%Q ->
  exists s, param_get_str (PFloat a b) (Fmt true false) off bb = Ok s
    /\ param_set_str (PFloat a b) (Fmt true false) s off bb = Ok bb.
Proof.
  intros a b off bb u Hr Hf Hv.
  assert (0 <= u < 2 ^ 32) as Hu.
  { apply bb_read_int_Ok in Hr. destruct Hr as [HL ->]. pose proof (le_decode_range (slice bb off 4)) as R.
    rewrite slice_length, pow256 in R by auto. exact R. }
  exists (print_dec u). unfold param_get_str, param_set_str. cbn [pt_size]. rewrite Hr. cbn [obind from_bb_str to_bb_str].
  split; auto. unfold float_of_str. cbn [f_raw negb]. rewrite andb_false_r. rewrite convertTo_print_dec.
  - apply float_in_range_spec in Hv. rewrite Hf, Hv. cbn [andb obind]. apply write_same_word. rewrite Hr, word_of_small; auto.
  - change (ct_lo t_uint32) with 0. change (ct_hi t_uint32) with 4294967295. change (2 ^ 32) with 4294967296 in Hu. lia.
Qed.
