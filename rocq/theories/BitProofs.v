(** Proofs about bit parameters. *)
From Coq Require Import List Arith ZArith QArith Bool Ascii String Lia ZifyBool.
From Verif Require Import Base BaseProofs TextModel TextSpec TextProofs RealModel ParamTypeModel ParamTypeSpec
  BlackboardModel BlackboardProofs IntProofs BitModel BitSpec.
Import ListNotations.
Open Scope Z_scope.

Definition block_ok (b : nat) : Prop := b = 1%nat \/ b = 2%nat \/ b = 4%nat \/ b = 8%nat.

Lemma bit_wf_spec : forall t, bit_wf t = true ->
  block_ok (bt_block t) /\ 0 <= bt_pos t /\ 1 <= bt_size t /\ bt_pos t + bt_size t <= 8 * Z.of_nat (bt_block t)
  /\ 8 * Z.of_nat (bt_block t) <= 64 /\ 0 <= bt_max t <= 2 ^ bt_size t - 1
  /\ bit_max_encodable t = 2 ^ bt_size t - 1.
Proof.
  intros t H. unfold bit_wf in H. rewrite !andb_true_iff in H.
  destruct H as [[[[[H1 H2] H3] H4] H5] H6].
  assert (block_ok (bt_block t)) as Hb by (unfold block_ok; lia).
  assert (8 * Z.of_nat (bt_block t) <= 64) by (unfold block_ok in Hb; lia).
  assert (bit_max_encodable t = 2 ^ bt_size t - 1) as E.
  { unfold bit_max_encodable. change (2 ^ 64 - 1) with (Z.ones 64).
    rewrite Z.shiftr_div_pow2, Z.ones_div_pow2 by lia.
    replace (64 - (64 - bt_size t)) with (bt_size t) by lia. rewrite Z.ones_equiv. lia. }
  repeat split; auto; try lia.
Qed.

Lemma ones_testbit : forall n i, 0 <= n -> Z.testbit (2 ^ n - 1) i = (0 <=? i) && (i <? n).
Proof.
  intros n i Hn. replace (2 ^ n - 1) with (Z.ones n) by (rewrite Z.ones_equiv; lia).
  destruct (Z_lt_le_dec i 0).
  - rewrite Z.testbit_neg_r by lia. lia.
  - destruct (Z_lt_le_dec i n).
    + rewrite Z.ones_spec_low by lia. lia.
    + rewrite Z.ones_spec_high by lia. lia.
Qed.

Lemma testbit_high : forall x n i, 0 <= x < 2 ^ n -> n <= i -> Z.testbit x i = false.
Proof.
  intros x n i Hx Hi. destruct (Z.eq_dec x 0) as [->|]; [apply Z.bits_0|].
  apply Z.bits_above_log2; [lia|]. apply Z.lt_le_trans with n; auto. apply Z.log2_lt_pow2; lia.
Qed.

Lemma bit_mask_eq : forall t, bit_wf t = true -> bit_mask t = Z.shiftl (2 ^ bt_size t - 1) (bt_pos t)
  /\ 0 <= bit_mask t < 2 ^ 64.
Proof.
  intros t H. apply bit_wf_spec in H. destruct H as [Hb [H1 [H2 [H3 [H4 [H5 H6]]]]]].
  unfold bit_mask. rewrite H6.
  assert (0 <= Z.shiftl (2 ^ bt_size t - 1) (bt_pos t) < 2 ^ 64) as R.
  { rewrite Z.shiftl_mul_pow2 by lia.
    assert (2 ^ (bt_pos t + bt_size t) <= 2 ^ 64) by (apply Z.pow_le_mono_r; lia).
    rewrite Z.pow_add_r in H by lia.
    assert (0 < 2 ^ bt_pos t) by (apply Z.pow_pos_nonneg; lia).
    assert (0 < 2 ^ bt_size t) by (apply Z.pow_pos_nonneg; lia). nia. }
  split; [|unfold t_uint64; rewrite to_ctype_unsigned; apply (word_of_range 8)].
  unfold t_uint64. rewrite to_ctype_unsigned. apply word_of_small. exact R.
Qed.

Lemma bit_mask_testbit : forall t i, bit_wf t = true ->
  Z.testbit (bit_mask t) i = (bt_pos t <=? i) && (i <? bt_pos t + bt_size t).
Proof.
  intros t i H. destruct (bit_mask_eq t H) as [E _]. rewrite E.
  apply bit_wf_spec in H. destruct H as [Hb [H1 [H2 _]]].
  destruct (Z_lt_le_dec i 0). { rewrite Z.testbit_neg_r by lia. lia. }
  rewrite Z.shiftl_spec by lia. rewrite ones_testbit by lia. lia.
Qed.

Lemma not64_testbit : forall x i, 0 <= x < 2 ^ 64 -> 0 <= i < 64 ->
  Z.testbit (not64 x) i = negb (Z.testbit x i).
Proof.
  intros x i Hx Hi. unfold not64.
  replace (2 ^ 64 - 1 - x) with (Z.lnot x + 2 ^ 64) by (unfold Z.lnot; lia).
  assert (Z.testbit (Z.lnot x + 2 ^ 64) i = Z.testbit (Z.lnot x) i) as ->.
  { rewrite <- (Z.mod_pow2_bits_low (Z.lnot x + 2 ^ 64) 64 i) by lia.
    rewrite <- (Z.mod_pow2_bits_low (Z.lnot x) 64 i) by lia. f_equal.
    replace (Z.lnot x + 2 ^ 64) with (Z.lnot x + 1 * 2 ^ 64) by lia. apply Z.mod_add. lia. }
  apply Z.lnot_spec. lia.
Qed.

Lemma not64_testbit_high : forall x i, 0 <= x < 2 ^ 64 -> 64 <= i -> Z.testbit (not64 x) i = false.
Proof. intros x i Hx Hi. apply (testbit_high _ 64); auto. unfold not64. lia. Qed.

Lemma shl_pos_u64 : forall t v, bit_wf t = true -> 0 <= v <= bt_max t ->
  to_ctype t_uint64 (Z.shiftl v (bt_pos t)) = Z.shiftl v (bt_pos t)
  /\ 0 <= Z.shiftl v (bt_pos t) < 2 ^ (8 * Z.of_nat (bt_block t)).
Proof.
  intros t v H Hv. apply bit_wf_spec in H. destruct H as [Hb [H1 [H2 [H3 [H4 [H5 H6]]]]]].
  assert (0 <= Z.shiftl v (bt_pos t) < 2 ^ (8 * Z.of_nat (bt_block t))) as R.
  { rewrite Z.shiftl_mul_pow2 by lia.
    assert (2 ^ (bt_pos t + bt_size t) <= 2 ^ (8 * Z.of_nat (bt_block t))) by (apply Z.pow_le_mono_r; lia).
    rewrite Z.pow_add_r in H by lia.
    assert (0 < 2 ^ bt_pos t) by (apply Z.pow_pos_nonneg; lia). nia. }
  split; auto. unfold t_uint64. rewrite to_ctype_unsigned. apply word_of_small.
  assert (2 ^ (8 * Z.of_nat (bt_block t)) <= 2 ^ (8 * Z.of_nat 8)) by (apply Z.pow_le_mono_r; lia). lia.
Qed.

Lemma bit_rmw_testbit : forall t v data i, bit_wf t = true -> 0 <= v <= bt_max t ->
  0 <= data < 2 ^ (8 * Z.of_nat (bt_block t)) -> 0 <= i ->
  Z.testbit (Z.lor (Z.land data (not64 (bit_mask t))) (to_ctype t_uint64 (Z.shiftl v (bt_pos t)))) i
  = if (bt_pos t <=? i) && (i <? bt_pos t + bt_size t) then Z.testbit v (i - bt_pos t) else Z.testbit data i.
Proof.
  intros t v data i H Hv Hd Hi. destruct (shl_pos_u64 t v H Hv) as [-> R].
  destruct (bit_mask_eq t H) as [_ Rm]. pose proof (bit_mask_testbit t i H) as Tm.
  apply bit_wf_spec in H. destruct H as [Hb [H1 [H2 [H3 [H4 [H5 H6]]]]]].
  rewrite Z.lor_spec, Z.land_spec, Z.shiftl_spec by lia.
  destruct (Z_lt_le_dec i 64).
  - rewrite not64_testbit by lia. rewrite Tm.
    destruct ((bt_pos t <=? i) && (i <? bt_pos t + bt_size t)) eqn:E.
    + rewrite andb_false_r. reflexivity.
    + cbn [negb]. rewrite andb_true_r.
      assert (Z.testbit v (i - bt_pos t) = false) as ->; [|apply orb_false_r].
      destruct (Z_lt_le_dec (i - bt_pos t) 0); [apply Z.testbit_neg_r; lia|].
      apply (testbit_high v (bt_size t)); lia.
  - rewrite not64_testbit_high by lia. rewrite andb_false_r. cbn [orb].
    replace ((bt_pos t <=? i) && (i <? bt_pos t + bt_size t)) with false by lia.
    rewrite (testbit_high v (bt_size t)) by lia.
    symmetry. apply (testbit_high data (8 * Z.of_nat (bt_block t))); lia.
Qed.

Lemma bit_field_testbit : forall t data i, bit_wf t = true -> 0 <= i ->
  Z.testbit (bit_field t data) i = (i <? bt_size t) && Z.testbit data (i + bt_pos t).
Proof.
  intros t data i H Hi. unfold bit_field. pose proof (bit_mask_testbit t (i + bt_pos t) H) as T.
  apply bit_wf_spec in H. destruct H as [_ [H1 [H2 _]]].
  rewrite Z.shiftr_spec by lia. rewrite Z.land_spec, T.
  replace ((bt_pos t <=? i + bt_pos t) && (i + bt_pos t <? bt_pos t + bt_size t)) with (i <? bt_size t) by lia.
  apply andb_comm.
Qed.

Lemma bits_below : forall x n, 0 <= n -> (forall i, n <= i -> Z.testbit x i = false) -> 0 <= x < 2 ^ n.
Proof.
  intros x n Hn H. assert (x = x mod 2 ^ n) as ->.
  { apply Z.bits_inj'. intros i Hi. destruct (Z_lt_le_dec i n).
    - rewrite Z.mod_pow2_bits_low; auto; lia.
    - rewrite Z.mod_pow2_bits_high by lia. apply H. lia. }
  apply Z.mod_pos_bound. apply Z.pow_pos_nonneg; lia.
Qed.

Lemma bit_field_range : forall t data, bit_wf t = true -> 0 <= bit_field t data < 2 ^ bt_size t.
Proof.
  intros t data H. pose proof (bit_wf_spec t H) as [_ [H1 [H2 _]]]. apply bits_below; [lia|].
  intros i Hi. rewrite bit_field_testbit by (auto; lia). replace (i <? bt_size t) with false by lia. reflexivity.
Qed.

Lemma read_int_range : forall bb b off u, bb_read_int bb b off = Ok u -> 0 <= u < 2 ^ (8 * Z.of_nat b).
Proof.
  intros bb b off u Hu. unfold bb_read_int, omap, bb_read in Hu.
  destruct (bb_access_ok bb off b) eqn:Ea; [|discriminate].
  cbn [obind] in Hu. inversion Hu as [Hu']. apply bb_access_ok_spec in Ea.
  pose proof (le_decode_range (slice bb off b)) as R. rewrite slice_length, pow256 in R; auto.
Qed.

Lemma read_int_fits : forall bb b off, (off + b <= List.length bb)%nat ->
  bb_read_int bb b off = Ok (le_decode (slice bb off b)).
Proof. intros. apply bb_read_int_fits. auto. Qed.

Lemma bit_set_core : forall t v off bb, bit_wf t = true -> (off + bt_block t <= List.length bb)%nat ->
  0 <= v -> 
  (v <= bt_max t ->
   exists bb', (do data <- bb_read_int bb (bt_block t) off; do u <- bit_to_bb t v data;
                bb_write_int bb u (bt_block t) off) = Ok bb'
     /\ bit_effect t v off bb bb'
     /\ (forall f, bitparam_get_str t f off bb'
          = Ok (if f_raw f && f_hex f then lit "0x" ++ print_base 16 v else print_dec v))
     /\ bitparam_get_val t KUInt off bb' = Ok (UUInt (to_ctype t_uint32 v)))
  /\ (bt_max t < v -> (do data <- bb_read_int bb (bt_block t) off; do u <- bit_to_bb t v data;
                bb_write_int bb u (bt_block t) off) = Err).
Proof.
  intros t v off bb Hwf Hoff Hv0. rewrite read_int_fits by auto. cbn [obind].
  set (data := le_decode (slice bb off (bt_block t))).
  assert (0 <= data < 2 ^ (8 * Z.of_nat (bt_block t))) as Rd.
  { apply (read_int_range bb _ off). apply read_int_fits. auto. }
  unfold bit_to_bb. split; intros Hv.
  2: { destruct (Z.gtb_spec v (bt_max t)); [reflexivity|lia]. }
  destruct (Z.gtb_spec v (bt_max t)); [lia|]. cbn [obind].
  set (u := Z.lor _ _).
  assert (forall i, 0 <= i -> Z.testbit u i = if (bt_pos t <=? i) && (i <? bt_pos t + bt_size t)
      then Z.testbit v (i - bt_pos t) else Z.testbit data i) as Tu.
  { intros i Hi. apply bit_rmw_testbit; auto; lia. }
  pose proof (bit_wf_spec t Hwf) as [Hb [H1 [H2 [H3 [H4 [H5 H6]]]]]].
  assert (0 <= u < 2 ^ (8 * Z.of_nat (bt_block t))) as Ru.
  { apply bits_below; [lia|]. intros i Hi. rewrite Tu by lia.
    replace ((bt_pos t <=? i) && (i <? bt_pos t + bt_size t)) with false by lia.
    apply (testbit_high data (8 * Z.of_nat (bt_block t))); lia. }
  destruct (write_read_word bb u (bt_block t) off Hoff) as [bb' [W1 [W2 [W3 W4]]]].
  rewrite word_of_small in W3 by auto.
  assert (bit_field t u = v) as Ef.
  { apply Z.bits_inj'. intros i Hi. rewrite bit_field_testbit by auto. rewrite Tu by lia.
    replace (i + bt_pos t - bt_pos t) with i by lia.
    destruct (Z.ltb_spec i (bt_size t)); cbn [andb].
    - replace ((bt_pos t <=? i + bt_pos t) && (i + bt_pos t <? bt_pos t + bt_size t)) with true by lia. auto.
    - symmetry. apply (testbit_high v (bt_size t)); lia. }
  exists bb'. split; auto. split; [|split].
  - split; auto. split; auto. exists data, u. split; [apply read_int_fits; auto|]. split; auto.
  - intros f. unfold bitparam_get_str. rewrite W3. cbn [obind]. unfold bit_from_bb_str. rewrite Ef. reflexivity.
  - unfold bitparam_get_val. rewrite W3. cbn [obind]. unfold bit_from_bb_uint. rewrite Ef. reflexivity.
Qed.

Lemma strtoull0_range : forall s, 0 <= strtoull0 s < 2 ^ 64.
Proof.
  intros s. unfold strtoull0.
  destruct (match skip_ws s with
                    | c :: r => if char_eqb c "-"%char then (true, r)
                                else if char_eqb c "+"%char then (false, r) else (false, skip_ws s)
                    | [] => (false, [])
                    end) as [neg s2].
  destruct (match s2 with
                  | c0 :: c1 :: c2 :: r =>
                      if char_eqb c0 "0"%char && (char_eqb c1 "x"%char || char_eqb c1 "X"%char)
                         && match digit_val c2 with Some _ => true | None => false end
                      then (16%Z, c2 :: r)
                      else if char_eqb c0 "0"%char then (8%Z, s2) else (10%Z, s2)
                  | c0 :: _ => if char_eqb c0 "0"%char then (8%Z, s2) else (10%Z, s2)
                  | [] => (10%Z, s2)
                  end) as [b s3] eqn:Eb.
  assert (0 <= b) as Hb.
  { revert Eb. repeat match goal with
      | |- context [match ?x with [] => _ | _ :: _ => _ end] => destruct x
      | |- context [if ?x then _ else _] => destruct x
      end; intros Eb; inversion Eb; lia. }
  destruct (take_digits b 0 false s3) as [[mag any] rest] eqn:E.
  apply take_digits_inv in E. destruct E as [s1 [ds [_ [HF [-> _]]]]].
  pose proof (positional_nonneg b s1 ds Hb HF) as Hp. rewrite fold_positional.
  destruct (Z.leb_spec (positional b ds) (2 ^ 64 - 1)); [|lia].
  destruct neg; [apply Z.mod_pos_bound; lia|lia].
Qed.

Lemma bitparam_set_str_core : forall t s off bb,
  bitparam_set_str t s off bb
  = (do data <- bb_read_int bb (bt_block t) off; do u <- bit_to_bb t (strtoull0 s) data;
     bb_write_int bb u (bt_block t) off).
Proof. reflexivity. Qed.

Lemma strtoull0_sat : forall neg b s3 ds, neg = false -> Forall2 (good b) s3 ds -> ds <> [] ->
  (let '(mag, _, _) := take_digits b 0 false s3 in
   if (mag <=? 2 ^ 64 - 1)%Z then (if neg : bool then (- mag) mod 2 ^ 64 else mag)%Z else (2 ^ 64 - 1)%Z)
  = Z.min (positional b ds) (2 ^ 64 - 1).
Proof.
  intros neg b s3 ds -> HF Hne. rewrite (take_digits_all b s3 ds HF Hne).
  destruct (Z.leb_spec (positional b ds) (2 ^ 64 - 1)); lia.
Qed.

Lemma strtoull0_plain : forall s v, plain_number s v -> strtoull0 s = Z.min v (2 ^ 64 - 1).
Proof.
  intros s v [[ds [HF [Hv Hl]]]|[r [ds [-> [Hne [HF Hv]]]]]]; subst v.
  - assert (ds <> []) as Hne by (destruct Hl as [->|[d [r [-> _]]]]; discriminate).
    apply Forall2_good10 in HF. unfold strtoull0.
    destruct s as [|c s]; [inversion HF; subst; congruence|].
    assert (exists d, good 10 c d) as [d Hd] by (inversion HF; subst; eauto).
    rewrite skip_ws_head by (eapply good_not_space; eauto).
    destruct (good_not_sign 10 c d Hd) as [N1 N2].
    destruct (char_eqb c "-"%char) eqn:E1; [apply char_eqb_eq in E1; congruence|].
    destruct (char_eqb c "+"%char) eqn:E2; [apply char_eqb_eq in E2; congruence|].
    destruct Hl as [->|[d0 [r [-> Hd0]]]].
    + inversion HF as [|? ? ? ? H1 H2]; subst. inversion H2; subst. clear HF H2.
      destruct H1 as [H1 H1'].
      assert (c = "0"%char) as ->.
      { assert (dec_digit c 0) as K by (apply digit_val_dec; split; auto). destruct K as [_ K].
        unfold bval in K. rewrite <- (ascii_N_embedding c). change "0"%char with (ascii_of_N 48).
        f_equal. lia. }
      reflexivity.
    + assert (char_eqb c "0"%char = false) as E0.
      { destruct (char_eqb c "0"%char) eqn:E0; auto. apply char_eqb_eq in E0. subst c.
        inversion HF as [|? ? ? ? [H1 _] _]; subst. cbn in H1. congruence. }
      assert ((match s with
               | c1 :: c2 :: r0 =>
                  if char_eqb c "0"%char && (char_eqb c1 "x"%char || char_eqb c1 "X"%char)
                         && match digit_val c2 with Some _ => true | None => false end
                      then (16%Z, c2 :: r0)
                      else if char_eqb c "0"%char then (8%Z, c :: s) else (10%Z, c :: s)
               | _ => if char_eqb c "0"%char then (8%Z, c :: s) else (10%Z, c :: s) end) = (10, c :: s)) as K.
      { rewrite E0. destruct s as [|c1 [|c2 s]]; reflexivity. }
      destruct s as [|c1 [|c2 s]]; cbv beta iota zeta in K |- *; rewrite K;
        apply (strtoull0_sat false); auto.
  - apply Forall2_good16 in HF. unfold strtoull0.
    destruct r as [|c r]; [inversion HF; subst; congruence|].
    assert (digit_val c <> None) as Hc.
    { inversion HF as [|? ? ? ? [H1 _] _]; subst. congruence. }
    rewrite skip_ws_head by reflexivity.
    change (char_eqb "0"%char "-"%char) with false. change (char_eqb "0"%char "+"%char) with false. cbv beta iota zeta.
    change (char_eqb "0"%char "0"%char) with true. change (char_eqb "x"%char "x"%char) with true. cbn [andb orb].
    destruct (digit_val c) eqn:Ec; [|congruence]. cbv beta iota zeta. apply (strtoull0_sat false); auto.
Qed.

Lemma bit_field_arith : forall t w, bit_wf t = true -> bit_field t w = (w / 2 ^ bt_pos t) mod 2 ^ bt_size t.
Proof.
  intros t w H. pose proof (bit_wf_spec t H) as [_ [H1 [H2 _]]]. apply Z.bits_inj'. intros i Hi.
  rewrite bit_field_testbit by auto. destruct (Z.ltb_spec i (bt_size t)); cbn [andb].
  - rewrite Z.mod_pow2_bits_low by lia. rewrite Z.div_pow2_bits by lia. reflexivity.
  - rewrite Z.mod_pow2_bits_high by lia. reflexivity.
Qed.

Lemma bit_effect_reads : forall t v off bb bb', bit_wf t = true -> 0 <= v <= bt_max t ->
  bit_effect t v off bb bb' -> bit_reads t v off bb'.
Proof.
  intros t v off bb bb' Hwf Hv [_ [_ [w [w' [Hw [Hw' T]]]]]].
  pose proof (bit_wf_spec t Hwf) as [Hb [H1 [H2 [H3 [H4 [H5 H6]]]]]].
  assert (bit_field t w' = v) as Ef.
  { apply Z.bits_inj'. intros i Hi. rewrite bit_field_testbit by auto. rewrite T by lia.
    replace (i + bt_pos t - bt_pos t) with i by lia.
    destruct (Z.ltb_spec i (bt_size t)); cbn [andb].
    - replace ((bt_pos t <=? i + bt_pos t) && (i + bt_pos t <? bt_pos t + bt_size t)) with true by lia. auto.
    - symmetry. apply (testbit_high v (bt_size t)); lia. }
  split; [|split].
  - exists w'. split; auto. rewrite <- bit_field_arith; auto.
  - intros f. unfold bitparam_get_str. rewrite Hw'. cbn [obind]. eexists. split; [reflexivity|].
    unfold bit_from_bb_str. rewrite Ef.
    assert (dec_numeral (print_dec v) v) as Kd.
    { destruct (print_dec_canon v) as [[_ K]|[K _]]; [auto|lia]. }
    destruct (f_raw f && f_hex f).
    + split; [right|exists (print_base 16 v); reflexivity].
      destruct (print_base_nolead 16 v) as [ds [K1 [_ [K2 K3]]]]; try lia.
      exists (print_base 16 v), ds. split; [reflexivity|]. split.
      { destruct K3 as [->|[d [r [-> _]]]]; discriminate. }
      split; auto. apply Forall2_good16; auto.
    + split; [left|]; auto.
  - intros Hlt. unfold bitparam_get_val. rewrite Hw'. cbn [obind]. unfold bit_from_bb_uint. rewrite Ef.
    unfold t_uint32. rewrite to_ctype_unsigned, word_of_small; auto. lia.
Qed.

Lemma bit_set_text : forall t s v off bb, bit_wf t = true -> (off + bt_block t <= List.length bb)%nat ->
  plain_number s v ->
  (v <= bt_max t -> exists bb', bitparam_set_str t s off bb = Ok bb'
      /\ bit_effect t v off bb bb' /\ bit_reads t v off bb')
  /\ (bt_max t < v -> (bt_max t = 2 ^ 64 - 1 -> v < 2 ^ 64) -> bitparam_set_str t s off bb = Err).
Proof.
  intros t s v off bb Hwf Hoff Hs. pose proof (bit_wf_spec t Hwf) as [Hb [H1 [H2 [H3 [H4 [H5 H6]]]]]].
  assert (2 ^ bt_size t <= 2 ^ 64) by (apply Z.pow_le_mono_r; lia).
  assert (0 <= v) as Hv0.
  { destruct Hs as [[ds [HF [Hv _]]]|[r [ds [_ [_ [HF Hv]]]]]]; subst v.
    - apply Forall2_good10 in HF. eapply positional_nonneg; eauto; lia.
    - apply Forall2_good16 in HF. eapply positional_nonneg; eauto; lia. }
  rewrite bitparam_set_str_core, (strtoull0_plain s v Hs).
  split; intros Hv.
  - rewrite Z.min_l by lia. destruct (bit_set_core t v off bb Hwf Hoff Hv0) as [K _].
    destruct (K Hv) as [bb' [K1 [K2 _]]]. exists bb'. split; auto. split; auto.
    eapply bit_effect_reads; eauto.
  - intros Hmax. destruct (bit_set_core t (Z.min v (2 ^ 64 - 1)) off bb Hwf Hoff) as [_ K]; [lia|].
    apply K. lia.
Qed.

Lemma bit_set_any_text : forall t s off bb bb', bit_wf t = true -> (off + bt_block t <= List.length bb)%nat ->
  bitparam_set_str t s off bb = Ok bb' ->
  exists v, 0 <= v <= bt_max t /\ bit_effect t v off bb bb' /\ bit_reads t v off bb'.
Proof.
  intros t s off bb bb' Hwf Hoff H. rewrite bitparam_set_str_core in H.
  pose proof (strtoull0_range s) as R. exists (strtoull0 s).
  destruct (bit_set_core t (strtoull0 s) off bb Hwf Hoff) as [K1 K2]; [lia|].
  destruct (Z_lt_le_dec (bt_max t) (strtoull0 s)) as [L|L].
  - rewrite K2 in H by auto. discriminate.
  - destruct (K1 L) as [bb2 [E [Ef _]]]. rewrite H in E. inversion E; subst bb2.
    split; [lia|]. split; auto. eapply bit_effect_reads; eauto; lia.
Qed.

Lemma bit_handle : forall t v off bb, bit_wf t = true -> (off + bt_block t <= List.length bb)%nat ->
  0 <= v < 2 ^ 32 ->
  (v <= bt_max t -> exists bb', bitparam_set_val t (UUInt v) off bb = Ok bb'
      /\ bit_effect t v off bb bb' /\ bit_reads t v off bb')
  /\ (bt_max t < v -> bitparam_set_val t (UUInt v) off bb = Err).
Proof.
  intros t v off bb Hwf Hoff Hv. unfold bitparam_set_val.
  destruct (bit_set_core t v off bb Hwf Hoff) as [K1 K2]; [lia|]. split; auto.
  intros L. destruct (K1 L) as [bb' [E [Ef _]]]. exists bb'. split; auto. split; auto.
  eapply bit_effect_reads; eauto; lia.
Qed.

Lemma bit_bool_handle : forall t (w : bool) off bb, bit_wf t = true -> (off + bt_block t <= List.length bb)%nat ->
  (bt_size t = 1 -> (if w then 1 else 0) <= bt_max t ->
     exists bb', bitparam_set_val t (UBool w) off bb = Ok bb'
      /\ bit_effect t (if w then 1 else 0) off bb bb'
      /\ bitparam_get_val t KBool off bb' = Ok (UBool w))
  /\ (bt_size t <> 1 -> bitparam_set_val t (UBool w) off bb = Err /\ bitparam_get_val t KBool off bb = Err).
Proof.
  intros t w off bb Hwf Hoff. unfold bitparam_set_val, bitparam_get_val. split.
  - intros E1 Hm. rewrite E1. cbn [Z.eqb Pos.eqb].
    destruct (bit_set_core t (if w then 1 else 0) off bb Hwf Hoff) as [K1 K2]; [destruct w; lia|].
    destruct (K1 Hm) as [bb' [E [Ef _]]]. exists bb'. split; auto. split; auto.
    destruct (bit_effect_reads t (if w then 1 else 0) off bb bb') as [_ [_ R]]; auto; [destruct w; lia|].
    specialize (R ltac:(destruct w; lia)). unfold bitparam_get_val in R.
    destruct (bb_read_int bb' (bt_block t) off) as [d| | |]; try discriminate. cbn [obind] in *.
    inversion R as [R']. rewrite R'. destruct w; reflexivity.
  - intros N. destruct (Z.eqb_spec (bt_size t) 1); [contradiction|]. auto.
Qed.

(** merge (used to copy the areas of bitwise elements) takes the field from the new value. *)
Lemma bit_merge_testbit : forall t origin new i, bit_wf t = true ->
  0 <= origin < 2 ^ (8 * Z.of_nat (bt_block t)) -> 0 <= i ->
  Z.testbit (bit_merge t origin new) i
  = if (bt_pos t <=? i) && (i <? bt_pos t + bt_size t) then Z.testbit new i else Z.testbit origin i.
Proof.
  intros t origin new i H Ho Hi. unfold bit_merge.
  destruct (bit_mask_eq t H) as [_ Rm]. pose proof (bit_mask_testbit t i H) as Tm.
  apply bit_wf_spec in H. destruct H as [Hb [H1 [H2 [H3 [H4 [H5 H6]]]]]].
  rewrite Z.lor_spec, !Z.land_spec, Tm.
  destruct (Z_lt_le_dec i 64).
  - rewrite not64_testbit by lia. rewrite Tm.
    destruct ((bt_pos t <=? i) && (i <? bt_pos t + bt_size t)); cbn [negb];
      rewrite ?andb_false_r, ?andb_true_r, ?orb_false_r; reflexivity.
  - rewrite not64_testbit_high by lia.
    replace ((bt_pos t <=? i) && (i <? bt_pos t + bt_size t)) with false by lia.
    rewrite !andb_false_r. cbn [orb]. symmetry. apply (testbit_high origin (8 * Z.of_nat (bt_block t))); lia.
Qed.

Lemma bit_numbers : forall t s off bb bb', bit_wf t = true -> (off + bt_block t <= List.length bb)%nat ->
  bitparam_set_str t s off bb = Ok bb' ->
  (forall v, plain_number s v -> v < 2 ^ 64 -> v <= bt_max t /\ bit_reads t v off bb')
  /\ exists v, 0 <= v <= bt_max t /\ bit_reads t v off bb'.
Proof.
  intros t s off bb bb' Hwf Hoff H. split.
  - intros v Hs Hv. destruct (bit_set_text t s v off bb Hwf Hoff Hs) as [K1 K2].
    destruct (Z_lt_le_dec (bt_max t) v) as [L|L].
    + rewrite K2 in H by auto. discriminate.
    + split; auto. destruct (K1 L) as [bb2 [E [_ R]]]. rewrite H in E. inversion E; subst. auto.
  - destruct (bit_set_any_text t s off bb bb' Hwf Hoff H) as [v [H1 [_ H2]]]. eauto.
Qed.
