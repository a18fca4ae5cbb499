(** Proofs about the bits of the memory. *)
From Coq Require Import List Arith ZArith Bool Ascii Lia.
From Verif Require Import Base BaseProofs ParamTypeModel BlackboardModel BlackboardProofs BitModel BitProofs ArrayModel ArraySpec TreeModel TreeSpec
  TreeProofs MemSpec.
Import ListNotations.
Local Open Scope nat_scope.

Lemma div8 : forall i o, (8 * o + i) / 8 = o + i / 8.
Proof. intros. rewrite Nat.add_comm, Nat.mul_comm, Nat.div_add by lia. lia. Qed.

Lemma mod8 : forall i o, (8 * o + i) mod 8 = i mod 8.
Proof. intros. rewrite Nat.add_comm, Nat.mul_comm, Nat.mod_add by lia. auto. Qed.

Lemma div8_lt : forall i n, i / 8 < n <-> i < 8 * n.
Proof.
  intros. split; intros H.
  - pose proof (Nat.div_mod i 8 ltac:(lia)). pose proof (Nat.mod_upper_bound i 8 ltac:(lia)). lia.
  - apply Nat.div_lt_upper_bound; lia.
Qed.

Lemma mbit_shift : forall b1 o1 b2 o2 i, nth_error b1 (o1 + i / 8) = nth_error b2 (o2 + i / 8) ->
  mbit b1 (8 * o1 + i) = mbit b2 (8 * o2 + i).
Proof. intros. unfold mbit. rewrite !div8, !mod8, H. auto. Qed.

Lemma mbit_same_byte : forall b1 b2 i, nth_error b1 (i / 8) = nth_error b2 (i / 8) -> mbit b1 i = mbit b2 i.
Proof. intros. unfold mbit. rewrite H. auto. Qed.

Lemma mbit_overwrite : forall bb off d i, off + List.length d <= List.length bb ->
  mbit (overwrite bb off d) i
  = if (8 * off <=? i) && (i <? 8 * (off + List.length d)) then mbit d (i - 8 * off) else mbit bb i.
Proof.
  intros bb off d i H. destruct (Nat.leb_spec (8 * off) i); cbn [andb].
  - assert (exists j, i = 8 * off + j) as [j ->] by (exists (i - 8 * off); lia).
    replace (8 * off + j - 8 * off) with j by lia.
    destruct (Nat.ltb_spec (8 * off + j) (8 * (off + List.length d))).
    + pose proof (proj2 (div8_lt j (List.length d)) ltac:(lia)).
      unfold mbit. rewrite div8, mod8, nth_error_overwrite_in by lia.
      replace (off + j / 8 - off) with (j / 8) by lia. auto.
    + apply mbit_same_byte. apply nth_error_overwrite_out; auto. right. rewrite div8.
      destruct (Nat.lt_ge_cases (j / 8) (List.length d)) as [C|C]; [|lia].
      apply (proj1 (div8_lt j (List.length d))) in C. lia.
  - apply mbit_same_byte. apply nth_error_overwrite_out; auto. left. apply div8_lt. lia.
Qed.

Lemma mbit_slice : forall bb off n i, mbit (slice bb off n) i = if i <? 8 * n then mbit bb (8 * off + i) else false.
Proof.
  intros bb off n i. destruct (Nat.ltb_spec i (8 * n)).
  - replace i with (8 * 0 + i) at 1 by lia. apply mbit_shift. cbn [Nat.add]. apply nth_error_slice. apply div8_lt; auto.
  - unfold mbit. pose proof (slice_length_le bb off n). rewrite (proj2 (nth_error_None (slice bb off n) (i / 8))); auto.
    destruct (Nat.lt_ge_cases (i / 8) n) as [C|C]; [apply div8_lt in C|]; lia.
Qed.

Lemma mbit_testbit : forall bb i, Z.testbit (le_decode bb) (Z.of_nat i) = mbit bb i.
Proof.
  induction bb as [|b bb IH]; intros i.
  - cbn [le_decode]. rewrite Z.bits_0. unfold mbit. destruct (i / 8); auto.
  - cbn [le_decode].
    assert (bval b + 256 * le_decode bb = Z.lor (bval b) (Z.shiftl (le_decode bb) 8))%Z as E.
    { rewrite Z.shiftl_mul_pow2 by lia. change (2 ^ 8)%Z with 256%Z.
      rewrite <- Z.lxor_lor, <- Z.add_nocarry_lxor; try lia.
      - apply Z.bits_inj'. intros n Hn. rewrite Z.bits_0, Z.land_spec. pose proof (bval_range b).
        destruct (Z_lt_le_dec n 8).
        + replace (le_decode bb * 256)%Z with (Z.shiftl (le_decode bb) 8) by (rewrite Z.shiftl_mul_pow2; lia).
          rewrite Z.shiftl_spec_low by lia. apply andb_false_r.
        + rewrite (testbit_high (bval b) 8) by lia. auto.
      - apply Z.bits_inj'. intros n Hn. rewrite Z.bits_0, Z.land_spec. pose proof (bval_range b).
        destruct (Z_lt_le_dec n 8).
        + replace (le_decode bb * 256)%Z with (Z.shiftl (le_decode bb) 8) by (rewrite Z.shiftl_mul_pow2; lia).
          rewrite Z.shiftl_spec_low by lia. apply andb_false_r.
        + rewrite (testbit_high (bval b) 8) by lia. auto. }
    rewrite E, Z.lor_spec. unfold mbit. pose proof (bval_range b) as Rb.
    destruct (Nat.lt_ge_cases i 8).
    + rewrite Z.shiftl_spec_low by lia. rewrite orb_false_r. rewrite (Nat.div_small i 8), (Nat.mod_small i 8) by lia. auto.
    + rewrite (testbit_high (bval b) 8) by lia. rewrite Z.shiftl_spec by lia. cbn [orb].
      assert (exists j, i = 8 * 1 + j) as [j ->] by (exists (i - 8); lia).
      replace (Z.of_nat (8 * 1 + j) - 8)%Z with (Z.of_nat j) by lia. rewrite IH. unfold mbit. rewrite div8, mod8. auto.
Qed.

Lemma mbit_encode : forall n z i, i < 8 * n -> mbit (le_encode n z) i = Z.testbit z (Z.of_nat i).
Proof.
  intros n z i H. rewrite <- mbit_testbit, le_decode_encode.
  replace (256 ^ Z.of_nat n)%Z with (2 ^ (8 * Z.of_nat n))%Z by (rewrite Z.pow_mul_r by lia; auto).
  rewrite Z.mod_pow2_bits_low; auto. lia.
Qed.

Lemma mbit_past : forall bb i, 8 * List.length bb <= i -> mbit bb i = false.
Proof.
  intros. unfold mbit. rewrite (proj2 (nth_error_None bb (i / 8))); auto.
  destruct (Nat.lt_ge_cases (i / 8) (List.length bb)) as [C|C]; auto. apply div8_lt in C. lia.
Qed.

(** Equal bits of a byte make an equal byte. *)
Lemma bits_byte : forall b1 o1 b2 o2 k, o1 + k < List.length b1 -> o2 + k < List.length b2 ->
  (forall j, j < 8 -> mbit b1 (8 * o1 + (8 * k + j)) = mbit b2 (8 * o2 + (8 * k + j))) ->
  nth_error b1 (o1 + k) = nth_error b2 (o2 + k).
Proof.
  intros b1 o1 b2 o2 k H1 H2 H.
  destruct (nth_error b1 (o1 + k)) as [x|] eqn:E1; [|apply nth_error_None in E1; lia].
  destruct (nth_error b2 (o2 + k)) as [y|] eqn:E2; [|apply nth_error_None in E2; lia].
  f_equal. apply bval_inj. apply Z.bits_inj'. intros n Hn. pose proof (bval_range x). pose proof (bval_range y).
  destruct (Z_lt_le_dec n 8).
  - specialize (H (Z.to_nat n) ltac:(lia)). unfold mbit in H.
    rewrite !div8, !mod8 in H. rewrite (Nat.div_small (Z.to_nat n) 8), (Nat.mod_small (Z.to_nat n) 8) in H by lia.
    rewrite !Nat.add_0_r, E1, E2 in H. rewrite Z2Nat.id in H by lia. auto.
  - rewrite !(testbit_high _ 8) by lia. auto.
Qed.

Lemma same_bytes_mbit : forall o1 b1 o2 b2 n, o1 + n <= List.length b1 -> o2 + n <= List.length b2 ->
  (forall i, i < 8 * n -> mbit b1 (8 * o1 + i) = mbit b2 (8 * o2 + i)) -> same_bytes o1 b1 o2 b2 n.
Proof.
  intros o1 b1 o2 b2 n H1 H2 H. split; auto. split; auto. intros k Hk. apply bits_byte; try lia. intros j Hj. apply H. lia.
Qed.

(** ** Ownership *)

Lemma field_bit_storage : forall root p e j, elem_wf root = true -> elem_at root p = Some e -> field_bit e j = true ->
  j < 8 * storage_size e.
Proof.
  intros root p e j Hw Hp H. unfold field_bit, storage_size in *. destruct (e_kind e) eqn:K; try (apply Nat.ltb_lt; auto; fail).
  destruct (bit_storage root p e t Hw Hp K) as [r [i [blk [_ [_ [_ [_ W]]]]]]].
  apply bit_wf_spec in W. destruct W as [Hb [H1 [H2 [H3 [H4 [H5 H6]]]]]].
  apply andb_true_iff in H. destruct H as [_ H]. apply Nat.ltb_lt in H. lia.
Qed.

Lemma owns_range : forall root p e i, elem_wf root = true -> elem_at root p = Some e -> owns root p i ->
  8 * offset root p <= i < 8 * (offset root p + storage_size e).
Proof.
  intros root p e i Hw Hp [e' [H1 [H2 H3]]]. rewrite Hp in H1. inversion H1; subst e'.
  pose proof (field_bit_storage root p e _ Hw Hp H3). lia.
Qed.

Lemma owns_exists : forall root p i, owns root p i -> exists e, elem_at root p = Some e.
Proof. intros root p i [e [H _]]. eauto. Qed.

(** Storage of an element inside the one of an ancestor. *)
Lemma storage_above : forall root p q e f, elem_wf root = true -> above p q ->
  elem_at root p = Some e -> elem_at root q = Some f ->
  offset root p <= offset root q /\ offset root q + storage_size f <= offset root p + storage_size e.
Proof.
  intros root p q e f Hw [r ->] Hp Hq.
  destruct (layout_inside_parent root p r e f Hw Hp Hq) as [L1 L2]. split; auto.
  assert (forall t, e_kind e = KdBit t -> p ++ r = p) as NB.
  { intros t Ke. destruct (bit_storage root p e t Hw Hp Ke) as [r0 [i0 [blk [-> [Hr [Hk [Ho Hb]]]]]]].
    destruct (below_block root r0 _ blk ((r0 ++ [i0]) ++ r) f Hw Hr Hk ltac:(exists ([i0] ++ r); rewrite app_assoc; auto) Hq)
      as [E|[j [u [E Ku]]]]; [exfalso|]; apply (f_equal (@List.length nat)) in E; rewrite !app_length in E; simpl in E; [lia|].
    destruct r; [apply app_nil_r|simpl in E; lia]. }
  assert (forall t, e_kind e = KdBit t -> e = f) as NB2.
  { intros t Ke. rewrite (NB t Ke) in Hq. congruence. }
  unfold storage_size. destruct (e_kind f) eqn:K;
    try (destruct (e_kind e) eqn:Ke; try lia; pose proof (NB2 _ eq_refl); congruence).
  destruct (bit_storage root _ f t Hw Hq K) as [r1 [i1 [blk [E [Hr [Hk [Ho Hb]]]]]]].
  destruct r as [|k r] using rev_ind.
  - rewrite app_nil_r in *. rewrite Hp in Hq. inversion Hq; subst. rewrite K. lia.
  - clear IHr. rewrite app_assoc in E. apply app_inj_tail in E. destruct E as [E ->]. subst r1. clear L2.
    destruct (layout_inside_parent root p r e blk Hw Hp Hr) as [M1 M2].
    assert (footprint blk = bt_block t) as Fb by (destruct blk; simpl in *; subst; auto).
    rewrite Ho, Fb in *. destruct (e_kind e) eqn:Ke; try lia.
    exfalso. assert (elem_wf e = true \/ exists t nm, e = Elem nm (KdBit t) []) as [W|[t' [nm ->]]].
    { destruct (elem_wf_at p root e Hw Hp) as [|[t' [nm [-> _]]]]; eauto. }
    + destruct e; simpl in *; subst; discriminate.
    + rewrite app_assoc, elem_at_app in Hq. rewrite Hr in Hq. rewrite elem_at_app, Hp in Hr. destruct r as [|a r].
      * simpl in Hr. inversion Hr; subst. discriminate.
      * simpl in Hr. destruct a; discriminate.
Qed.

Lemma owns_above : forall root p q i, elem_wf root = true -> above p q -> (exists e, elem_at root p = Some e) ->
  owns root q i -> owns root p i.
Proof.
  intros root p q i Hw A [e Hp] H. destruct (owns_exists _ _ _ H) as [f Hq].
  pose proof (owns_range root q f i Hw Hq H) as R. destruct (storage_above root p q e f Hw A Hp Hq) as [S1 S2].
  exists e. split; auto. split; [lia|]. unfold field_bit. destruct (e_kind e) eqn:K;
    try (unfold storage_size in S2 at 2; rewrite K in S2; apply Nat.ltb_lt; lia).
  (* a bit parameter has no descendant *)
  assert (e = Elem (e_name e) (KdBit t) []) as Ee.
  { destruct (elem_wf_at p root e Hw Hp) as [W|[t' [nm [-> _]]]].
    - destruct e; simpl in *; subst; discriminate.
    - simpl in *. congruence. }
  destruct A as [r ->]. rewrite elem_at_app, Hp in Hq. destruct r as [|a r].
  - rewrite app_nil_r in *. destruct H as [f' [H1 [H2 H3]]]. rewrite Hp in H1. inversion H1; subst f'.
    unfold field_bit in H3. rewrite K in H3. auto.
  - rewrite Ee in Hq. simpl in Hq. destruct a; discriminate.
Qed.

Lemma owns_apart : forall root p q i, elem_wf root = true -> fields_apart root -> unrelated p q ->
  owns root p i -> owns root q i -> False.
Proof.
  intros root p q i Hw Hf U Hp Hq.
  destruct (owns_exists _ _ _ Hp) as [e Ep]. destruct (owns_exists _ _ _ Hq) as [f Eq].
  pose proof (owns_range root p e i Hw Ep Hp). pose proof (owns_range root q f i Hw Eq Hq).
  assert (~ same_block root p q) as NB.
  { intros [r [a [b [e' [f' [t [u [-> [-> [H1 [H2 [K1 K2]]]]]]]]]]]].
    rewrite Ep in H1. rewrite Eq in H2. inversion H1; inversion H2; subst e' f'.
    assert (a <> b). { intros ->. apply (proj1 U). exists []. symmetry. apply app_nil_r. }
    pose proof (Hf r a b e f t u H3 Ep Eq K1 K2) as F.
    destruct (bit_storage root _ e t Hw Ep K1) as [r1 [i1 [b1 [E1 [Q1 [L1 [O1 W1]]]]]]].
    destruct (bit_storage root _ f u Hw Eq K2) as [r2 [i2 [b2 [E2 [Q2 [L2 [O2 W2]]]]]]].
    apply app_inj_tail in E1. destruct E1 as [<- <-]. apply app_inj_tail in E2. destruct E2 as [<- <-].
    destruct Hp as [e' [Z1 [Z2 Z3]]]. rewrite Ep in Z1. inversion Z1; subst e'.
    destruct Hq as [f' [Y1 [Y2 Y3]]]. rewrite Eq in Y1. inversion Y1; subst f'.
    unfold field_bit in Z3, Y3. rewrite K1 in Z3. rewrite K2 in Y3. rewrite O1 in Z3. rewrite O2 in Y3.
    apply bit_wf_spec in W1. apply bit_wf_spec in W2.
    apply andb_true_iff in Z3. apply andb_true_iff in Y3. destruct Z3 as [Z3 Z4]. destruct Y3 as [Y3 Y4].
    apply Nat.leb_le in Z3. apply Nat.leb_le in Y3. apply Nat.ltb_lt in Z4. apply Nat.ltb_lt in Y4.
    rewrite O1 in Z2. rewrite O2 in Y2. destruct W1 as [_ [W1 [W1' _]]]. destruct W2 as [_ [W2 [W2' _]]]. clear - Z2 Z3 Z4 Y2 Y3 Y4 W1 W1' W2 W2' F. lia. }
  pose proof (apart_storage root p q e f Hw U NB Ep Eq) as A. unfold apart in A. lia.
Qed.

Lemma owns_param : forall root q e, elem_wf root = true -> param_at root q e ->
  forall bit, match e_kind e with KdBit t => (Z.to_nat (bt_pos t) <=? bit) && (bit <? Z.to_nat (bt_pos t + bt_size t)) = true
              | k => bit < 8 * size_of_kind k end -> owns root q (8 * offset root q + bit).
Proof.
  intros root q e Hw [Hq Hk] bit H. exists e. split; auto. split; [lia|].
  replace (8 * offset root q + bit - 8 * offset root q) with bit by lia. pose proof (storage_size_kind e Hk) as S.
  unfold field_bit, storage_size in *. destruct (e_kind e); auto; try discriminate; apply Nat.ltb_lt; rewrite S; auto.
Qed.

(** Two memories that give the same value to a parameter give the same text. *)
Lemma same_setting_get : forall root q e f rest base1 b1 base2 b2, elem_wf root = true -> param_at root q e ->
  rest = [] \/ (base1 = 0 /\ base2 = 0) -> base1 <= offset root q -> base2 <= offset root q ->
  offset root q - base1 + size_of_kind (e_kind e) <= List.length b1 ->
  offset root q - base2 + size_of_kind (e_kind e) <= List.length b2 ->
  (forall max, e_kind e = KdString max -> terminated max (offset root q - base1) b1) ->
  same_setting root q base1 b1 base2 b2 ->
  leaf_get (e_kind e) f rest (offset root q) base1 b1 = leaf_get (e_kind e) f rest (offset root q) base2 b2.
Proof.
  intros root q e f rest base1 b1 base2 b2 Hw Hq RB L1 L2 F1 F2 T S.
  pose proof (param_kind_wf root q e Hw Hq) as KW.
  assert (forall k base bb, rest = [] \/ base = 0 ->
            leaf_get k f rest (offset root q) base bb = leaf_get k f rest (offset root q - base) 0 bb) as SH.
  { intros k base bb [->| ->]; unfold leaf_get, array_access_get, array_get_text; rewrite !Nat.sub_0_r; auto. }
  rewrite !SH by tauto.
  assert (forall bit, owns root q (8 * offset root q + bit) ->
            mbit b1 (8 * (offset root q - base1) + bit) = mbit b2 (8 * (offset root q - base2) + bit)) as B.
  { intros bit O. specialize (S _ O). replace (8 * offset root q + bit - 8 * base1) with (8 * (offset root q - base1) + bit) in S by lia.
    replace (8 * offset root q + bit - 8 * base2) with (8 * (offset root q - base2) + bit) in S by lia. auto. }
  destruct (e_kind e) eqn:K; try (destruct Hq as [_ Hk]; rewrite K in Hk; discriminate).
  2,3,4: apply leaf_get_same; auto; apply same_bytes_mbit; auto;
     intros i Hi; apply B; apply (owns_param root q e Hw Hq); rewrite K; auto.
  (* bit parameter: only the bits of the field count *)
  unfold leaf_get. rewrite !Nat.sub_0_r. destruct rest; auto. unfold bitparam_get_str. simpl in F1, F2.
  rewrite !read_int_fits by auto. cbn [obind].
  unfold bit_from_bb_str. replace (bit_field t (le_decode (slice b1 (offset root q - base1) (bt_block t))))
    with (bit_field t (le_decode (slice b2 (offset root q - base2) (bt_block t)))); auto.
  apply Z.bits_inj'. intros n Hn. rewrite !bit_field_testbit by auto. destruct (n <? bt_size t)%Z eqn:Hl; auto. cbn [andb].
  assert (bit_wf t = true) as W by exact KW. apply bit_wf_spec in W.
  replace (n + bt_pos t)%Z with (Z.of_nat (Z.to_nat (n + bt_pos t))) by lia. rewrite !mbit_testbit, !mbit_slice.
  destruct (Z.to_nat (n + bt_pos t) <? 8 * bt_block t) eqn:E; auto. symmetry. apply B.
  apply (owns_param root q e Hw Hq). rewrite K. apply andb_true_iff. rewrite Nat.leb_le, Nat.ltb_lt. lia.
Qed.
