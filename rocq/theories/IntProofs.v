(** Proofs about integer, boolean and enumeration parameters. *)
From Coq Require Import List Arith ZArith QArith Bool Ascii String Lia ZifyBool.
From Verif Require Import Base BaseProofs TextModel TextSpec TextProofs RealModel ParamTypeModel ParamTypeSpec
  BlackboardModel BlackboardProofs.
Import ListNotations.
Open Scope Z_scope.

Definition size_ok (b : nat) : Prop := b = 1%nat \/ b = 2%nat \/ b = 4%nat.

Lemma size_ok_spec : forall b, ((b =? 1) || (b =? 2) || (b =? 4))%nat = true <-> size_ok b.
Proof. intros b. unfold size_ok. lia. Qed.

Lemma pow8_1 : 2 ^ (8 * Z.of_nat 1) = 256. Proof. reflexivity. Qed.
Lemma pow8_2 : 2 ^ (8 * Z.of_nat 2) = 65536. Proof. reflexivity. Qed.
Lemma pow8_4 : 2 ^ (8 * Z.of_nat 4) = 4294967296. Proof. reflexivity. Qed.
Lemma pow7_1 : 2 ^ (8 * Z.of_nat 1 - 1) = 128. Proof. reflexivity. Qed.
Lemma pow7_2 : 2 ^ (8 * Z.of_nat 2 - 1) = 32768. Proof. reflexivity. Qed.
Lemma pow7_4 : 2 ^ (8 * Z.of_nat 4 - 1) = 2147483648. Proof. reflexivity. Qed.

Ltac pows := rewrite ?pow8_1, ?pow8_2, ?pow8_4, ?pow7_1, ?pow7_2, ?pow7_4 in *.

Lemma pow256 : forall b, 256 ^ Z.of_nat b = 2 ^ (8 * Z.of_nat b).
Proof. intros. change 256 with (2 ^ 8). rewrite <- Z.pow_mul_r by lia. reflexivity. Qed.

Lemma to_ctype_signed : forall b u, (0 < b)%nat ->
  to_ctype (CType true b) u = two_compl b (word_of b u).
Proof.
  intros b u Hb. unfold to_ctype, two_compl, word_of. cbn [ct_signed ct_bytes andb].
  replace (2 ^ (8 * Z.of_nat b) / 2) with (2 ^ (8 * Z.of_nat b - 1)).
  - destruct (Z.leb_spec (2 ^ (8 * Z.of_nat b - 1)) (u mod 2 ^ (8 * Z.of_nat b)));
      destruct (Z.ltb_spec (u mod 2 ^ (8 * Z.of_nat b)) (2 ^ (8 * Z.of_nat b - 1))); lia.
  - symmetry. replace (8 * Z.of_nat b) with (Z.succ (8 * Z.of_nat b - 1)) at 1 by lia.
    rewrite Z.pow_succ_r by lia. rewrite Z.mul_comm, Z.div_mul; lia.
Qed.

Lemma to_ctype_unsigned : forall b u, to_ctype (CType false b) u = word_of b u.
Proof. reflexivity. Qed.

Ltac Zify.zify_post_hook ::= Z.div_mod_to_equations.

Lemma sign_extend_eq : forall b u, size_ok b ->
  sign_extend b u = two_compl b (word_of b u).
Proof.
  intros b u [->|[->| ->]]; unfold sign_extend.
  - change (8 * (4 - Z.of_nat 1)) with 24.
    rewrite Z.shiftl_mul_pow2, Z.shiftr_div_pow2 by lia.
    unfold t_int32. rewrite to_ctype_signed by lia. unfold two_compl, word_of. pows.
    change (2 ^ 24) with 16777216.
    destruct (Z.ltb_spec ((u * 16777216) mod 4294967296) 2147483648);
    destruct (Z.ltb_spec (u mod 256) 128); lia.
  - change (8 * (4 - Z.of_nat 2)) with 16.
    rewrite Z.shiftl_mul_pow2, Z.shiftr_div_pow2 by lia.
    unfold t_int32. rewrite to_ctype_signed by lia. unfold two_compl, word_of. pows.
    change (2 ^ 16) with 65536.
    destruct (Z.ltb_spec ((u * 65536) mod 4294967296) 2147483648);
    destruct (Z.ltb_spec (u mod 65536) 32768); lia.
  - change (8 * (4 - Z.of_nat 4)) with 0.
    rewrite Z.shiftl_0_r, Z.shiftr_0_r.
    unfold t_int32. rewrite to_ctype_signed by lia. reflexivity.
Qed.

Lemma sign_extend_ct : forall b u, size_ok b ->
  sign_extend b (to_ctype t_int32 u) = two_compl b (word_of b u).
Proof.
  intros b u H. rewrite sign_extend_eq by auto.
  unfold t_int32. rewrite to_ctype_signed by lia. f_equal.
  destruct H as [->|[->| ->]]; unfold word_of, two_compl; pows;
    destruct (Z.ltb_spec (u mod 4294967296) 2147483648); lia.
Qed.

Ltac Zify.zify_post_hook ::= idtac.

Lemma pow_b : forall b, (0 < b)%nat ->
  2 ^ (8 * Z.of_nat b) = 2 * 2 ^ (8 * Z.of_nat b - 1) /\ 0 < 2 ^ (8 * Z.of_nat b - 1).
Proof.
  intros b H. split.
  - rewrite <- Z.pow_succ_r by lia. f_equal. lia.
  - apply Z.pow_pos_nonneg; lia.
Qed.

Lemma word_of_range : forall b v, 0 <= word_of b v < 2 ^ (8 * Z.of_nat b).
Proof. intros. unfold word_of. apply Z.mod_pos_bound. apply Z.pow_pos_nonneg; lia. Qed.

Lemma word_of_small : forall b v, 0 <= v < 2 ^ (8 * Z.of_nat b) -> word_of b v = v.
Proof. intros. unfold word_of. apply Z.mod_small. lia. Qed.

Lemma two_compl_word : forall b v, (0 < b)%nat -> width_lo true b <= v <= width_hi true b ->
  two_compl b (word_of b v) = v.
Proof.
  intros b v Hb H. unfold width_lo, width_hi in H. destruct (pow_b b Hb) as [E P].
  unfold two_compl, word_of. rewrite E. set (p := 2 ^ (8 * Z.of_nat b - 1)) in *.
  destruct (Z_lt_le_dec v 0).
  - replace (v mod (2 * p)) with (v + 2 * p).
    + destruct (Z.ltb_spec (v + 2 * p) p); lia.
    + rewrite <- (Z.mod_small (v + 2 * p) (2 * p)) by lia.
      replace (v + 2 * p) with (v + 1 * (2 * p)) by lia. apply Z.mod_add. lia.
  - rewrite Z.mod_small by lia. destruct (Z.ltb_spec v p); lia.
Qed.

Lemma word_two_compl : forall b w, (0 < b)%nat -> word_of b (two_compl b w) = word_of b w.
Proof.
  intros b w Hb. unfold two_compl, word_of. destruct (_ <? _); auto.
  replace (w - 2 ^ (8 * Z.of_nat b)) with (w + (-1) * 2 ^ (8 * Z.of_nat b)) by lia.
  apply Z.mod_add. apply Z.pow_nonzero; lia.
Qed.

Lemma two_compl_range : forall b w, (0 < b)%nat -> 0 <= w < 2 ^ (8 * Z.of_nat b) ->
  width_lo true b <= two_compl b w <= width_hi true b.
Proof.
  intros b w Hb H. destruct (pow_b b Hb) as [E P]. unfold two_compl, width_lo, width_hi. rewrite E in *.
  destruct (Z.ltb_spec w (2 ^ (8 * Z.of_nat b - 1))); lia.
Qed.

Lemma word_of_u32 : forall b v, size_ok b -> word_of b (to_ctype t_uint32 v) = word_of b v.
Proof.
  intros b v Hb. unfold t_uint32. rewrite to_ctype_unsigned. unfold word_of.
  destruct Hb as [->|[->| ->]]; pows; [| |].
  - rewrite <- (Znumtheory.Zmod_div_mod 256 4294967296); try lia. exists 16777216. reflexivity.
  - rewrite <- (Znumtheory.Zmod_div_mod 65536 4294967296); try lia. exists 65536. reflexivity.
  - apply Z.mod_mod. lia.
Qed.

(** ** Printing *)

Lemma digits_loop_nolead : forall fuel b n acc,
  2 <= b <= 16 -> 0 <= n < 2 ^ Z.of_nat fuel -> (0 < fuel)%nat ->
  exists s ds, digits_loop fuel b n acc = s ++ acc /\ Forall2 (good b) s ds
    /\ Forall2 (fun c d => c = digit_char d) s ds
    /\ (forall a, fold_left (fun a d => b * a + d) ds a = a * b ^ Z.of_nat (List.length s) + n)
    /\ (ds = [0] \/ exists d r, ds = d :: r /\ d <> 0).
Proof.
  induction fuel as [|fuel IH]; intros b n acc Hb Hn Hf; [lia|].
  cbn [digits_loop]. destruct (Z.ltb_spec n b).
  - exists [digit_char n], [n]. split; [reflexivity|]. split; [|split; [|split]].
    + constructor; auto. split; [apply digit_char_val; lia|lia].
    + constructor; auto.
    + intros a. simpl. lia.
    + destruct (Z.eq_dec n 0); [left; congruence|right]. exists n, []. auto.
  - assert (n / b < 2 ^ Z.of_nat fuel).
    { rewrite Nat2Z.inj_succ, Z.pow_succ_r in Hn by lia.
      apply Z.div_lt_upper_bound; [lia|]. nia. }
    assert (1 <= n / b) by (apply Z.div_le_lower_bound; lia).
    destruct fuel as [|fuel]; [simpl in *; lia|].
    destruct (IH b (n / b) (digit_char (n mod b) :: acc)) as [s [ds [K1 [K2 [K3 [K4 K5]]]]]]; auto; try lia.
    pose proof (Z.mod_pos_bound n b ltac:(lia)).
    exists (s ++ [digit_char (n mod b)]), (ds ++ [n mod b]).
    rewrite K1, <- app_assoc. split; [reflexivity|]. split; [|split; [|split]].
    + apply Forall2_app; auto. constructor; auto. split; [apply digit_char_val; lia|lia].
    + apply Forall2_app; auto.
    + intros a. rewrite fold_left_app. simpl. rewrite K4.
      rewrite app_length. simpl. rewrite Nat2Z.inj_add, Z.pow_add_r by lia.
      rewrite Z.pow_1_r. pose proof (Z.div_mod n b ltac:(lia)). nia.
    + right. destruct K5 as [->|[d [r [-> Hd]]]].
      * specialize (K4 0). simpl in K4. lia.
      * exists d, (r ++ [n mod b]). auto.
Qed.

Lemma print_base_nolead : forall b n, 2 <= b <= 16 -> 0 <= n ->
  exists ds, Forall2 (good b) (print_base b n) ds
    /\ Forall2 (fun c d => c = digit_char d) (print_base b n) ds
    /\ positional b ds = n
    /\ (ds = [0] \/ exists d r, ds = d :: r /\ d <> 0).
Proof.
  intros b n Hb Hn. unfold print_base.
  destruct (digits_loop_nolead (S (Z.to_nat (Z.log2 n))) b n []) as [s [ds [H1 [H2 [H3 [H4 H5]]]]]]; auto.
  - split; auto. rewrite Nat2Z.inj_succ, Z2Nat.id by (apply Z.log2_nonneg).
    destruct (Z.eq_dec n 0); [subst; simpl; lia|]. apply Z.log2_spec. lia.
  - lia.
  - rewrite app_nil_r in H1. rewrite H1. exists ds. repeat split; auto.
    unfold positional. rewrite H4. lia.
Qed.

Lemma positional_lower : forall b ds a, 2 <= b -> Forall (fun d => 0 <= d) ds -> 0 <= a ->
  a * b ^ Z.of_nat (List.length ds) <= fold_left (fun a d => b * a + d) ds a.
Proof.
  intros b ds. induction ds as [|d ds IH]; intros a Hb Hd Ha.
  - simpl. lia.
  - inversion Hd as [|? ? Hd1 Hd2]; subst. cbn [fold_left List.length].
    specialize (IH (b * a + d) Hb Hd2 ltac:(nia)).
    rewrite Nat2Z.inj_succ, Z.pow_succ_r by lia.
    assert (0 < b ^ Z.of_nat (List.length ds)) by (apply Z.pow_pos_nonneg; lia). nia.
Qed.

Lemma Forall2_good_nonneg : forall b s ds, Forall2 (good b) s ds -> Forall (fun d => 0 <= d) ds.
Proof. intros b s ds H. induction H; constructor; auto. eapply good_ge0; eauto. Qed.

Lemma print_base_length : forall b n w, 2 <= b <= 16 -> 0 <= n < b ^ Z.of_nat w -> (0 < w)%nat ->
  (List.length (print_base b n) <= w)%nat.
Proof.
  intros b n w Hb Hn Hw. destruct (print_base_nolead b n) as [ds [H1 [_ [H2 H3]]]]; auto; try lia.
  rewrite (Forall2_len _ _ _ _ _ H1). apply Forall2_good_nonneg in H1.
  destruct H3 as [->|[d [r [-> Hd]]]]; [simpl; lia|].
  inversion H1 as [|? ? Hd0 Hr]; subst. cbn [List.length].
  destruct (le_lt_dec (S (List.length r)) w); auto. exfalso.
  unfold positional in *. cbn [fold_left] in *.
  pose proof (positional_lower b r (b * 0 + d) ltac:(lia) Hr ltac:(lia)) as L.
  assert (b ^ Z.of_nat w <= b ^ Z.of_nat (List.length r)) by (apply Z.pow_le_mono_r; lia).
  assert (0 < b ^ Z.of_nat (List.length r)) by (apply Z.pow_pos_nonneg; lia). nia.
Qed.

Lemma print_dec_canon : forall v, canon_dec (print_dec v) v.
Proof.
  intros v. unfold print_dec, canon_dec. destruct (Z.ltb_spec v 0).
  - right. split; auto. exists (print_base 10 (- v)). split; auto.
    destruct (print_base_nolead 10 (- v)) as [ds [H1 [_ [H2 H3]]]]; try lia.
    exists ds. repeat split; auto. apply Forall2_good10. auto.
  - left. split; auto. destruct (print_base_nolead 10 v) as [ds [H1 [_ [H2 H3]]]]; try lia.
    exists ds. repeat split; auto. apply Forall2_good10. auto.
Qed.

Lemma digit_char_upper : forall d, 0 <= d < 16 -> upper_hex_digit (digit_char d) d.
Proof.
  intros d H. unfold digit_char, upper_hex_digit, dec_digit.
  destruct (Z.ltb_spec d 10); rewrite bval_byte_of, Z.mod_small by lia; [left|right]; lia.
Qed.

Lemma pad0_upper : forall w s ds, Forall2 upper_hex_digit s ds ->
  Forall2 upper_hex_digit (pad0 w s) (repeat 0 (w - List.length s) ++ ds).
Proof.
  intros w s ds H. unfold pad0. apply Forall2_app; auto.
  induction (w - List.length s)%nat; simpl; constructor; auto. left. split; [lia|reflexivity].
Qed.

Lemma print_hex_canon : forall b n, (0 < b)%nat -> 0 <= n < 2 ^ (8 * Z.of_nat b) ->
  canon_hex b (print_hex (2 * b) n) n.
Proof.
  intros b n Hb Hn. destruct (print_base_nolead 16 n) as [ds [H1 [H1' [H2 H3]]]]; try lia.
  exists (pad0 (2 * b) (print_base 16 n)), (repeat 0 (2 * b - List.length (print_base 16 n)) ++ ds).
  split; [reflexivity|]. split; [|split].
  - unfold pad0. rewrite app_length, repeat_length.
    pose proof (print_base_length 16 n (2 * b) ltac:(lia)) as L.
    assert (16 ^ Z.of_nat (2 * b) = 2 ^ (8 * Z.of_nat b)) as E.
    { change 16 with (2 ^ 4). rewrite <- Z.pow_mul_r by lia. f_equal. lia. }
    rewrite E in L. specialize (L ltac:(lia) ltac:(lia)). lia.
  - apply pad0_upper. clear - H1 H1'. revert H1'. induction H1 as [|c d s ds Hc H IH]; intros H'; constructor.
    + inversion H'; subst. apply digit_char_upper. destruct Hc as [Hc1 Hc2].
      apply digit_val_range in Hc1. lia.
    + inversion H'; subst. auto.
  - rewrite positional_leading_zeros. auto.
Qed.

(** ** Blackboard round trip of a word *)

Lemma write_read_word : forall bb u b off,
  (off + b <= List.length bb)%nat ->
  exists bb', bb_write_int bb u b off = Ok bb' /\ List.length bb' = List.length bb
    /\ bb_read_int bb' b off = Ok (word_of b u)
    /\ (forall i, (i < off \/ off + b <= i)%nat -> nth_error bb' i = nth_error bb i).
Proof.
  intros bb u b off H.
  destruct (bb_write_contract bb (le_encode b u) off) as [bb' [_ [H2 [H3 [_ [H5 H6]]]]]].
  { rewrite le_encode_length. auto. }
  rewrite le_encode_length in *. exists bb'. repeat split; auto.
  unfold bb_read_int. rewrite H5. simpl. rewrite le_decode_encode. unfold word_of.
  rewrite pow256. reflexivity.
Qed.

(** ** Integers from text *)

Lemma is_hex_prefixed : forall s v, int_text s v -> (is_hexadecimal s = true <-> hex_prefixed s).
Proof.
  intros s v H. split.
  - intros Hx. destruct s as [|c0 [|c1 s]]; try discriminate. simpl in Hx.
    apply andb_true_iff in Hx. destruct Hx as [H0 H1]. apply char_eqb_eq in H0. subst.
    apply orb_true_iff in H1. destruct H1 as [H1|H1]; apply char_eqb_eq in H1; subst.
    + exists s. auto.
    + exfalso. inversion H as [s' ds Hne HF|s' ds Hne HF|s' ds Hne HF|s' ds Hne HF]; subst.
      inversion HF as [|? ? ? ? _ HF2]; subst. inversion HF2 as [|? ? ? ? [HX1 HX2] _]; subst.
      change (bval "X"%char) with 88 in HX2. lia.
  - intros [r ->]. reflexivity.
Qed.

Definition signed_of (signed : bool) (bytes : nat) (w : Z) : Z := if signed then two_compl bytes w else w.

Lemma int_of_str_spec : forall sg b lo hi s, size_ok b ->
  width_lo sg b <= lo -> hi <= width_hi sg b ->
  ~ In formfeed s ->
  match int_of_str sg b lo hi s with
  | Ok u => exists v, int_denotes sg b s v /\ lo <= v <= hi /\ u = to_ctype t_uint32 v
  | Err => forall v, int_denotes sg b s v -> ~ (lo <= v <= hi)
  | _ => False
  end.
Proof.
  intros sg b lo hi s Hb Hlo Hhi Hff.
  assert (0 < b)%nat as Hb0 by (destruct Hb as [->|[->| ->]]; lia).
  unfold int_of_str.
  destruct (sg && is_hexadecimal s) eqn:Ex.
  - apply andb_true_iff in Ex. destruct Ex as [-> Ex].
    destruct (convertTo (CType false b) s) as [w|] eqn:Ec.
    + apply convertTo_spec in Ec; auto. destruct Ec as [Ht [Hw _]].
      unfold ct_lo, ct_hi in Hw; cbn [ct_signed ct_bytes] in Hw.
      rewrite to_ctype_signed, word_of_small by lia.
      assert (int_denotes true b s (two_compl b w)) as Hd.
      { apply (den_hex true b s w); auto; try lia. eapply is_hex_prefixed; eauto. }
      destruct (Z.ltb_spec (two_compl b w) lo); cbn [orb].
      { intros v Hv. replace v with (two_compl b w); [lia|].
        inversion Hv as [v' Hnp Ht' _|w' _ Ht' _]; subst.
        - exfalso. apply Hnp. eapply is_hex_prefixed; eauto.
        - rewrite (int_text_unique s w w'); auto. }
      destruct (Z.gtb_spec (two_compl b w) hi).
      { intros v Hv. replace v with (two_compl b w); [lia|].
        inversion Hv as [v' Hnp Ht' _|w' _ Ht' _]; subst.
        - exfalso. apply Hnp. eapply is_hex_prefixed; eauto.
        - rewrite (int_text_unique s w w'); auto. }
      exists (two_compl b w). repeat split; auto; lia.
    + intros v Hv. exfalso. inversion Hv as [v' Hnp Ht' _|w' _ Ht' Hw]; subst.
      * apply Hnp. eapply is_hex_prefixed; eauto.
      * assert (convertTo (CType false b) s = Some w') as Ec'; [|congruence].
        apply convertTo_spec; auto. split; auto. split.
        { unfold ct_lo, ct_hi; cbn [ct_signed ct_bytes]. lia. }
        intros _. apply (is_hex_prefixed s w' Ht') in Ex. destruct Ex as [r ->].
        inversion Ht' as [s' ds Hne HF|s' ds Hne HF|s' ds Hne HF|s' ds Hne HF]; subst.
        { apply Forall2_good10 in HF. apply in_chars_false. eapply good_no_minus; eauto. }
        apply Forall2_good16 in HF. intros [E|[E|E]]; try discriminate.
        revert E. apply in_chars_false. eapply good_no_minus; eauto.
  - assert (forall v, int_denotes sg b s v -> int_text s v /\ (sg = false -> ~ In "-"%char s)) as K.
    { intros v Hv. inversion Hv as [v' Hnp Ht' Hm|w' Hp Ht' Hw]; subst; auto.
      destruct sg.
      - exfalso. simpl in Ex. apply (is_hex_prefixed s w' Ht') in Hp. congruence.
      - split; auto. intros _. destruct Hp as [r ->].
        inversion Ht' as [s' ds Hne HF|s' ds Hne HF|s' ds Hne HF|s' ds Hne HF]; subst.
        { apply Forall2_good10 in HF. apply in_chars_false. eapply good_no_minus; eauto. }
        apply Forall2_good16 in HF. intros [E|[E|E]]; try discriminate.
        revert E. apply in_chars_false. eapply good_no_minus; eauto. }
    destruct (convertTo (CType sg b) s) as [w|] eqn:Ec.
    + apply convertTo_spec in Ec; auto. destruct Ec as [Ht [Hw Hm]]. cbn [ct_signed] in Hm.
      assert (to_ctype (CType sg b) w = w) as Ew.
      { unfold ct_lo, ct_hi in Hw; cbn [ct_signed ct_bytes] in Hw. destruct sg.
        - rewrite to_ctype_signed by lia. apply two_compl_word; auto.
        - rewrite to_ctype_unsigned. apply word_of_small. lia. }
      rewrite Ew.
      assert (forall v, int_denotes sg b s v -> v = w) as Ku.
      { intros v Hv. destruct (K v Hv) as [Ht' _]. apply (int_text_unique s); auto. }
      destruct (Z.ltb_spec w lo); cbn [orb].
      { intros v Hv. rewrite (Ku v Hv). lia. }
      destruct (Z.gtb_spec w hi).
      { intros v Hv. rewrite (Ku v Hv). lia. }
      exists w. repeat split; auto; try lia.
      destruct (is_hexadecimal s) eqn:Ex'.
      * destruct sg; [discriminate|]. apply (den_hex false b s w); auto.
        { eapply is_hex_prefixed; eauto. }
        unfold ct_lo, ct_hi in Hw; cbn [ct_signed ct_bytes] in Hw. lia.
      * apply den_dec; auto. intros Hp. apply (is_hex_prefixed s w Ht) in Hp. congruence.
    + intros v Hv Hr. destruct (K v Hv) as [Ht Hm].
      assert (convertTo (CType sg b) s = Some v); [|congruence].
      apply convertTo_spec; auto. split; auto. split; auto.
      unfold ct_lo, ct_hi; cbn [ct_signed ct_bytes]. unfold width_lo, width_hi in *. destruct sg; lia.
Qed.

Lemma int_to_str_canon : forall sg b f v u, size_ok b ->
  width_lo sg b <= v <= width_hi sg b -> u = word_of b v ->
  if f_raw f && f_hex f then canon_hex b (int_to_str sg b f u) (word_of b v)
  else canon_dec (int_to_str sg b f u) v.
Proof.
  intros sg b f v u Hb Hv ->. assert (0 < b)%nat as Hb0 by (destruct Hb as [->|[->| ->]]; lia).
  unfold int_to_str. destruct (f_raw f && f_hex f).
  - apply print_hex_canon; auto. apply word_of_range.
  - destruct sg.
    + rewrite sign_extend_ct by auto.
      assert (word_of b (word_of b v) = word_of b v) as -> by (apply word_of_small, word_of_range).
      rewrite two_compl_word by auto. apply print_dec_canon.
    + rewrite word_of_small. { apply print_dec_canon. }
      unfold width_lo, width_hi in Hv. lia.
Qed.

Lemma pt_wf_int : forall sg b lo hi, pt_wf (PInt sg b lo hi) = true <->
  size_ok b /\ width_lo sg b <= lo /\ lo <= hi /\ hi <= width_hi sg b.
Proof.
  intros. unfold pt_wf. rewrite !andb_true_iff, size_ok_spec, !in_ctype_spec, Z.leb_le.
  unfold ct_lo, ct_hi, width_lo, width_hi; cbn [ct_signed ct_bytes]. destruct sg; intuition lia.
Qed.

Lemma int_set_get : forall sg b lo hi f s off bb,
  pt_wf (PInt sg b lo hi) = true -> (off + b <= List.length bb)%nat -> ~ In formfeed s ->
  (forall v, int_denotes sg b s v -> lo <= v <= hi ->
     exists bb', param_set_str (PInt sg b lo hi) f s off bb = Ok bb'
       /\ List.length bb' = List.length bb
       /\ (forall i, (i < off \/ off + b <= i)%nat -> nth_error bb' i = nth_error bb i)
       /\ forall f', exists t, param_get_str (PInt sg b lo hi) f' off bb' = Ok t
            /\ if f_raw f' && f_hex f' then canon_hex b t (word_of b v) else canon_dec t v)
  /\ ((forall v, int_denotes sg b s v -> ~ (lo <= v <= hi)) ->
      param_set_str (PInt sg b lo hi) f s off bb = Err).
Proof.
  intros sg b lo hi f s off bb Hwf Hoff Hff. apply pt_wf_int in Hwf. destruct Hwf as [Hb [H1 [H2 H3]]].
  pose proof (int_of_str_spec sg b lo hi s Hb H1 H3 Hff) as S.
  unfold param_set_str, to_bb_str. destruct (int_of_str sg b lo hi s) as [u| | |] eqn:E; try contradiction.
  - destruct S as [v [Hd [Hr ->]]]. split.
    + intros v' Hd' Hr'. assert (v' = v) as ->.
      { inversion Hd as [? Hn Ht _|? Hn Ht _]; inversion Hd' as [? Hn' Ht' _|? Hn' Ht' _]; subst; try contradiction.
        - apply (int_text_unique s); auto.
        - rewrite (int_text_unique s w w0); auto. }
      destruct (write_read_word bb (to_ctype t_uint32 v) b off Hoff) as [bb' [W1 [W2 [W3 W4]]]].
      exists bb'. simpl. repeat split; auto. intros f'.
      exists (int_to_str sg b f' (word_of b v)). split.
      * unfold param_get_str. simpl. rewrite W3. simpl. rewrite word_of_u32 by auto. reflexivity.
      * apply int_to_str_canon; auto. lia.
    + intros K. exfalso. apply (K v); auto.
  - split; auto. intros v Hd Hr. exfalso. apply (S v); auto.
Qed.

(** ** Integer handle access *)

Definition user_val (signed_setter : bool) (v : Z) : uval := if signed_setter then UInt v else UUInt v.
Definition user_kind (signed_setter : bool) : ukind := if signed_setter then KInt else KUInt.

Lemma to_ctype_id : forall t v, (0 < ct_bytes t)%nat -> ct_lo t <= v <= ct_hi t -> to_ctype t v = v.
Proof.
  intros [sg b] v Hb H. cbn [ct_bytes] in Hb. destruct sg.
  - rewrite to_ctype_signed by auto. apply two_compl_word; auto.
  - rewrite to_ctype_unsigned. apply word_of_small. unfold ct_lo, ct_hi in H; cbn [ct_signed ct_bytes] in H. lia.
Qed.

Lemma width_in_u32 : forall b v, size_ok b -> width_lo false b <= v <= width_hi false b ->
  0 <= v <= 4294967295.
Proof. intros b v [->|[->| ->]]; unfold width_lo, width_hi; pows; lia. Qed.

Lemma width_in_i32 : forall b v, size_ok b -> width_lo true b <= v <= width_hi true b ->
  -2147483648 <= v <= 2147483647.
Proof. intros b v [->|[->| ->]]; unfold width_lo, width_hi; pows; lia. Qed.

Lemma size_ok_pos : forall b, size_ok b -> (0 < b)%nat.
Proof. intros b [->|[->| ->]]; lia. Qed.

Lemma width_u_of_s : forall b v, size_ok b -> 0 <= v <= width_hi true b -> 0 <= v <= width_hi false b.
Proof. intros b v [->|[->| ->]]; unfold width_hi; pows; lia. Qed.

Lemma int_handle : forall sg b lo hi f (setter : bool) v off bb,
  pt_wf (PInt sg b lo hi) = true -> (off + b <= List.length bb)%nat ->
  (if setter then -2147483648 <= v <= 2147483647 else 0 <= v <= 4294967295) ->
  (if setter then hi <= width_hi true b else 0 <= lo) ->
  (lo <= v <= hi ->
     exists bb', param_set_val (PInt sg b lo hi) f (user_val setter v) off bb = Ok bb'
       /\ List.length bb' = List.length bb
       /\ (forall i, (i < off \/ off + b <= i)%nat -> nth_error bb' i = nth_error bb i)
       /\ param_get_val (PInt sg b lo hi) (user_kind setter) off bb' = Ok (user_val setter v))
  /\ (~ (lo <= v <= hi) -> param_set_val (PInt sg b lo hi) f (user_val setter v) off bb = Err).
Proof.
  intros sg b lo hi f setter v off bb Hwf Hoff Hv Hc.
  apply pt_wf_int in Hwf. destruct Hwf as [Hb [H1 [H2 H3]]].
  assert (exists ut, (ut = if setter then t_int32 else t_uint32) /\ to_ctype ut lo = lo /\ to_ctype ut hi = hi
    /\ param_set_val (PInt sg b lo hi) f (user_val setter v) off bb
       = obind (int_of_user ut lo hi v) (fun u => bb_write_int bb u b off)) as [ut [Hut [Elo [Ehi Eset]]]].
  { exists (if setter then t_int32 else t_uint32). split; auto.
    assert (if setter then -2147483648 <= lo <= 2147483647 /\ -2147483648 <= hi <= 2147483647
            else 0 <= lo <= 4294967295 /\ 0 <= hi <= 4294967295) as Hr.
    { clear -Hb H1 H2 H3 Hc.
      unfold size_ok in Hb. destruct Hb as [->|[->| ->]]; unfold width_lo, width_hi in *; pows; destruct sg, setter; lia. }
    destruct setter; repeat split; try (apply to_ctype_id; [cbn; lia|]).
    - change (ct_lo t_int32) with (-2147483648). change (ct_hi t_int32) with 2147483647. lia.
    - change (ct_lo t_int32) with (-2147483648). change (ct_hi t_int32) with 2147483647. lia.
    - change (ct_lo t_uint32) with 0. change (ct_hi t_uint32) with 4294967295. lia.
    - change (ct_lo t_uint32) with 0. change (ct_hi t_uint32) with 4294967295. lia. }
  rewrite Eset. unfold int_of_user. rewrite Elo, Ehi. split.
  - intros Hr. destruct (Z.ltb_spec v lo); [lia|]. destruct (Z.gtb_spec v hi); [lia|]. cbn [orb obind].
    destruct (write_read_word bb (to_ctype t_uint32 v) b off Hoff) as [bb' [W1 [W2 [W3 W4]]]].
    exists bb'. repeat split; auto. unfold param_get_val. cbn [pt_size]. rewrite W3. cbn [obind].
    rewrite word_of_u32 by auto. destruct setter; cbn [user_kind from_bb_val user_val].
    + rewrite sign_extend_ct by auto.
      assert (word_of b (word_of b v) = word_of b v) as -> by (apply word_of_small, word_of_range).
      rewrite two_compl_word; auto. { apply size_ok_pos; auto. }
      split; [|lia]. destruct sg; [lia|]. clear - H1 Hr Hb.
      unfold size_ok in Hb. destruct Hb as [->|[->| ->]]; unfold width_lo in *; pows; lia.
    + rewrite word_of_small; auto. clear - H1 H3 Hr Hb Hc.
      unfold size_ok in Hb. destruct Hb as [->|[->| ->]]; unfold width_lo, width_hi in *; pows; destruct sg; lia.
  - intros Hr. destruct (Z.ltb_spec v lo); auto. destruct (Z.gtb_spec v hi); auto. lia.
Qed.

(** ** Booleans *)

Lemma bool_set_get : forall f s off bb, (off + 1 <= List.length bb)%nat ->
  let bval_of := fun w : bool => s = (if w then lit "1" else lit "0") \/ s = (if w then lit "0x1" else lit "0x0") in
  (forall w, bval_of w ->
     exists bb', param_set_str PBool f s off bb = Ok bb'
       /\ List.length bb' = List.length bb
       /\ (forall i, i <> off -> nth_error bb' i = nth_error bb i)
       /\ param_get_val PBool KBool off bb' = Ok (UBool w)
       /\ param_get_val PBool KUInt off bb' = Ok (UUInt (if w then 1 else 0))
       /\ forall f', param_get_str PBool f' off bb'
            = Ok ((if f_raw f' && f_hex f' then lit "0x" else []) ++ if w then lit "1" else lit "0"))
  /\ ((forall w, ~ bval_of w) -> param_set_str PBool f s off bb = Err).
Proof.
  intros f s off bb Hoff bval_of. split.
  - intros w Hw.
    assert (bool_of_str s = Ok (if w then 1 else 0)) as E.
    { destruct w, Hw as [->| ->]; reflexivity. }
    unfold param_set_str, to_bb_str. rewrite E. cbn [obind pt_size].
    destruct (write_read_word bb (if w then 1 else 0) 1 off Hoff) as [bb' [W1 [W2 [W3 W4]]]].
    exists bb'. split; [auto|]. split; [auto|]. split; [intros i Hi; apply W4; lia|].
    assert (word_of 1 (if w then 1 else 0) = if w then 1 else 0) as Ew by (destruct w; reflexivity).
    rewrite Ew in W3.
    unfold param_get_val, param_get_str. cbn [pt_size]. rewrite W3. cbn [obind from_bb_val from_bb_str].
    repeat split; destruct w; auto; intros f'; unfold bool_to_str; destruct (f_raw f' && f_hex f'); reflexivity.
  - intros H. unfold param_set_str, to_bb_str, bool_of_str.
    assert (str_eqb s (lit "1") = false) as -> by (apply str_eqb_neq; intros E; apply (H true); left; auto).
    assert (str_eqb s (lit "0x1") = false) as -> by (apply str_eqb_neq; intros E; apply (H true); right; auto).
    assert (str_eqb s (lit "0") = false) as -> by (apply str_eqb_neq; intros E; apply (H false); left; auto).
    assert (str_eqb s (lit "0x0") = false) as -> by (apply str_eqb_neq; intros E; apply (H false); right; auto).
    reflexivity.
Qed.

Lemma bool_handle : forall f off bb, (off + 1 <= List.length bb)%nat ->
  (forall w, exists bb', param_set_val PBool f (UBool w) off bb = Ok bb'
     /\ (forall i, i <> off -> nth_error bb' i = nth_error bb i)
     /\ param_get_val PBool KBool off bb' = Ok (UBool w))
  /\ (forall v, 0 <= v -> (v <= 1 -> exists bb', param_set_val PBool f (UUInt v) off bb = Ok bb'
        /\ param_get_val PBool KUInt off bb' = Ok (UUInt v))
      /\ (1 < v -> param_set_val PBool f (UUInt v) off bb = Err)).
Proof.
  intros f off bb Hoff. split.
  - intros w. destruct (write_read_word bb (if w then 1 else 0) 1 off Hoff) as [bb' [W1 [W2 [W3 W4]]]].
    exists bb'. unfold param_set_val. cbn [to_bb_val obind pt_size]. split; auto.
    split; [intros i Hi; apply W4; lia|].
    unfold param_get_val. cbn [pt_size]. rewrite W3. destruct w; reflexivity.
  - intros v Hv. split; intros Hv1; unfold param_set_val; cbn [to_bb_val].
    + destruct (Z.gtb_spec v 1); [lia|]. cbn [obind pt_size].
      destruct (write_read_word bb v 1 off Hoff) as [bb' [W1 [W2 [W3 W4]]]].
      exists bb'. split; auto. unfold param_get_val. cbn [pt_size]. rewrite W3. cbn [obind from_bb_val].
      assert (v = 0 \/ v = 1) as [->| ->] by lia; reflexivity.
    + destruct (Z.gtb_spec v 1); [|lia]. reflexivity.
Qed.

(** ** Enumerations *)

Lemma enum_in_space_spec : forall ps n, enum_in_space ps n = true <-> exists l, In (l, n) ps.
Proof.
  intros ps n. unfold enum_in_space. rewrite existsb_exists. split.
  - intros [[l v] [H E]]. cbn in E. apply Z.eqb_eq in E. subst. exists l. auto.
  - intros [l H]. exists (l, n). split; auto. apply Z.eqb_refl.
Qed.

Lemma enum_numerical_Some : forall ps s n, enum_numerical ps s = Some n -> In (s, n) ps.
Proof.
  induction ps as [|[l v] ps IH]; simpl; intros s n H; [discriminate|].
  destruct (str_eqb l s) eqn:E.
  - apply str_eqb_eq in E. inversion H; subst. auto.
  - right. auto.
Qed.

Lemma enum_numerical_In : forall ps s n, NoDup (map fst ps) -> In (s, n) ps -> enum_numerical ps s = Some n.
Proof.
  induction ps as [|[l v] ps IH]; simpl; intros s n Hn H; [contradiction|].
  inversion Hn as [|? ? Hni Hn']; subst.
  destruct (str_eqb l s) eqn:E.
  - apply str_eqb_eq in E. subst. destruct H as [H|H]; [congruence|].
    exfalso. apply Hni. change s with (fst (s, n)). apply in_map. auto.
  - destruct H as [H|H]; auto. inversion H; subst. rewrite str_eqb_refl in E. discriminate.
Qed.

Lemma enum_literal_Some : forall ps s n, enum_literal ps n = Some s -> In (s, n) ps.
Proof.
  induction ps as [|[l v] ps IH]; simpl; intros s n H; [discriminate|].
  destruct (Z.eqb_spec v n); [inversion H; subst; auto|right; auto].
Qed.

Lemma enum_literal_exists : forall ps n, (exists l, In (l, n) ps) -> exists l, enum_literal ps n = Some l.
Proof.
  induction ps as [|[l v] ps IH]; simpl; intros n [l' H]; [contradiction|].
  destruct (Z.eqb_spec v n); [eauto|]. destruct H as [H|H]; [congruence|eauto].
Qed.

Lemma enum_literal_In : forall ps s n, NoDup (map snd ps) -> In (s, n) ps -> enum_literal ps n = Some s.
Proof.
  induction ps as [|[l v] ps IH]; simpl; intros s n Hn H; [contradiction|].
  inversion Hn as [|? ? Hni Hn']; subst.
  destruct (Z.eqb_spec v n).
  - subst. destruct H as [H|H]; [congruence|].
    exfalso. apply Hni. change n with (snd (s, n)). apply in_map. auto.
  - destruct H as [H|H]; auto. congruence.
Qed.

Lemma enum_bounds : forall b n, enum_min b <= n <= enum_max b <-> width_lo true b <= n <= width_hi true b.
Proof. intros. unfold enum_min, enum_max, width_lo, width_hi. lia. Qed.

Lemma enum_of_int_spec : forall b ps f v u, size_ok b -> enum_of_int b ps f v = Ok u ->
  exists l n, In (l, n) ps /\ width_lo true b <= n <= width_hi true b /\ u = to_ctype t_uint32 n
    /\ n = (if f_raw f then two_compl b (word_of b v) else v).
Proof.
  intros b ps f v u Hb H. unfold enum_of_int in H. rewrite sign_extend_eq in H by auto.
  set (n := if f_raw f then two_compl b (word_of b v) else v) in *.
  destruct (enum_in_space ps n) eqn:E; cbn [negb] in H; [|discriminate].
  apply enum_in_space_spec in E. destruct E as [l Hl].
  destruct (Z.ltb_spec n (enum_min b)); cbn [orb] in H; [discriminate|].
  destruct (Z.gtb_spec n (enum_max b)); [discriminate|]. inversion H; subst.
  exists l, n. repeat split; auto; apply enum_bounds; lia.
Qed.

Lemma enum_of_int_Ok : forall b ps f v n, size_ok b ->
  n = (if f_raw f then two_compl b (word_of b v) else v) ->
  (exists l, In (l, n) ps) -> width_lo true b <= n <= width_hi true b ->
  enum_of_int b ps f v = Ok (to_ctype t_uint32 n).
Proof.
  intros b ps f v n Hb En Hin Hr. unfold enum_of_int. rewrite sign_extend_eq by auto. rewrite <- En.
  apply enum_in_space_spec in Hin. rewrite Hin. cbn [negb]. apply enum_bounds in Hr.
  destruct (Z.ltb_spec n (enum_min b)); [lia|]. destruct (Z.gtb_spec n (enum_max b)); [lia|]. reflexivity.
Qed.

Lemma pt_wf_enum : forall b ps, pt_wf (PEnum b ps) = true ->
  size_ok b /\ forall l n, In (l, n) ps -> -2147483648 <= n <= 2147483647.
Proof.
  intros b ps H. unfold pt_wf in H. apply andb_true_iff in H. destruct H as [H1 H2].
  split; [apply size_ok_spec; auto|]. intros l n Hl.
  rewrite forallb_forall in H2. specialize (H2 (l, n) Hl). apply in_ctype_spec in H2.
  exact H2.
Qed.

(** The bytes of the parameter hold the number [n]. *)
Lemma enum_stored : forall b ps n off bb bb', size_ok b -> (off + b <= List.length bb)%nat ->
  width_lo true b <= n <= width_hi true b ->
  bb_write_int bb (to_ctype t_uint32 n) b off = Ok bb' ->
  List.length bb' = List.length bb
  /\ bb_read_int bb' b off = Ok (word_of b n)
  /\ param_get_val (PEnum b ps) KInt off bb' = Ok (UInt n)
  /\ (forall i, (i < off \/ off + b <= i)%nat -> nth_error bb' i = nth_error bb i).
Proof.
  intros b ps n off bb bb' Hb Hoff Hn Hw.
  destruct (write_read_word bb (to_ctype t_uint32 n) b off Hoff) as [bb2 [W1 [W2 [W3 W4]]]].
  rewrite Hw in W1. inversion W1; subst bb2. rewrite word_of_u32 in W3 by auto.
  repeat split; auto. unfold param_get_val. cbn [pt_size]. rewrite W3. cbn [obind from_bb_val].
  rewrite sign_extend_ct by auto.
  assert (word_of b (word_of b n) = word_of b n) as -> by (apply word_of_small, word_of_range).
  rewrite two_compl_word; auto. apply size_ok_pos; auto.
Qed.

Lemma enum_accept : forall b ps f s off bb bb',
  pt_wf (PEnum b ps) = true -> (off + b <= List.length bb)%nat -> ~ In formfeed s ->
  param_set_str (PEnum b ps) f s off bb = Ok bb' ->
  exists l n, In (l, n) ps
    /\ ((f_raw f = false /\ (int_text s n \/ s = l))
        \/ (f_raw f = true /\ exists v, n = two_compl b (word_of b v) /\ (int_text s v \/ In (s, v) ps)))
    /\ param_get_val (PEnum b ps) KInt off bb' = Ok (UInt n)
    /\ (exists l', In (l', n) ps /\ forall h, param_get_str (PEnum b ps) (Fmt false h) off bb' = Ok l')
    /\ List.length bb' = List.length bb
    /\ (forall i, (i < off \/ off + b <= i)%nat -> nth_error bb' i = nth_error bb i).
Proof.
  intros b ps f s off bb bb' Hwf Hoff Hff H. apply pt_wf_enum in Hwf. destruct Hwf as [Hb Hps].
  unfold param_set_str, to_bb_str in H. destruct (enum_of_str b ps f s) as [u| | |] eqn:E; try discriminate.
  cbn [obind pt_size] in H. unfold enum_of_str in E.
  assert (exists v, enum_of_int b ps f v = Ok u /\ (int_text s v \/ In (s, v) ps)) as [v [Ev Hv]].
  { destruct (convertTo t_int32 s) as [v|] eqn:Ec.
    - exists v. split; auto. apply convertTo_spec in Ec; auto. tauto.
    - destruct (enum_numerical ps s) as [v|] eqn:En; [|discriminate].
      exists v. split; auto. right. apply enum_numerical_Some; auto. }
  apply enum_of_int_spec in Ev; auto. destruct Ev as [l [n [Hl [Hr [-> Hn]]]]].
  destruct (enum_stored b ps n off bb bb' Hb Hoff Hr H) as [S1 [S2 [S3 S4]]].
  assert (exists l', In (l', n) ps /\ forall h, param_get_str (PEnum b ps) (Fmt false h) off bb' = Ok l') as HL.
  { destruct (enum_literal_exists ps n) as [l' Hl']; [eauto|]. exists l'.
    split; [apply enum_literal_Some; auto|]. intros h. unfold param_get_str. cbn [pt_size]. rewrite S2.
    cbn [obind from_bb_str]. unfold enum_to_str. cbn [f_raw]. rewrite sign_extend_ct by auto.
    assert (word_of b (word_of b n) = word_of b n) as -> by (apply word_of_small, word_of_range).
    rewrite two_compl_word by (auto; apply size_ok_pos; auto). rewrite Hl'. auto. }
  destruct (f_raw f) eqn:Ef.
  - exists l, n. split; [assumption|]. split; [right; split; auto; exists v; auto|]. auto.
  - subst v. destruct Hv as [Hv|Hv].
    + exists l, n. split; [assumption|]. split; [left; auto|]. auto.
    + exists s, n. split; [assumption|]. split; [left; auto|]. auto.
Qed.

Lemma enum_literal_set : forall b ps f l n off bb,
  pt_wf (PEnum b ps) = true -> (off + b <= List.length bb)%nat ->
  NoDup (map fst ps) -> NoDup (map snd ps) ->
  In (l, n) ps -> width_lo true b <= n <= width_hi true b ->
  ~ In formfeed l -> (forall v, ~ int_text l v) ->
  exists bb', param_set_str (PEnum b ps) f l off bb = Ok bb'
    /\ (forall h, param_get_str (PEnum b ps) (Fmt false h) off bb' = Ok l)
    /\ param_get_val (PEnum b ps) KInt off bb' = Ok (UInt n)
    /\ List.length bb' = List.length bb
    /\ (forall i, (i < off \/ off + b <= i)%nat -> nth_error bb' i = nth_error bb i).
Proof.
  intros b ps f l n off bb Hwf Hoff Hn1 Hn2 Hl Hr Hff Hnt. apply pt_wf_enum in Hwf. destruct Hwf as [Hb Hps].
  assert (enum_of_str b ps f l = Ok (to_ctype t_uint32 n)) as E.
  { unfold enum_of_str. destruct (convertTo t_int32 l) as [v|] eqn:Ec.
    - exfalso. apply convertTo_spec in Ec; auto. apply (Hnt v). tauto.
    - rewrite (enum_numerical_In ps l n) by auto. apply enum_of_int_Ok; auto; [|eauto].
      destruct (f_raw f); auto. symmetry. apply two_compl_word; auto. apply size_ok_pos; auto. }
  unfold param_set_str, to_bb_str. rewrite E. cbn [obind pt_size].
  destruct (bb_write_int bb (to_ctype t_uint32 n) b off) as [bb'| | |] eqn:W.
  2-4: destruct (write_read_word bb (to_ctype t_uint32 n) b off Hoff) as [? [W1 _]]; congruence.
  destruct (enum_stored b ps n off bb bb' Hb Hoff Hr W) as [S1 [S2 [S3 S4]]].
  exists bb'. repeat split; auto. intros h. unfold param_get_str. cbn [pt_size]. rewrite S2.
  cbn [obind from_bb_str]. unfold enum_to_str. cbn [f_raw]. rewrite sign_extend_ct by auto.
  assert (word_of b (word_of b n) = word_of b n) as -> by (apply word_of_small, word_of_range).
  rewrite two_compl_word by (auto; apply size_ok_pos; auto). rewrite (enum_literal_In ps l n); auto.
Qed.

Lemma enum_number_set : forall b ps s n off bb h,
  pt_wf (PEnum b ps) = true -> (off + b <= List.length bb)%nat ->
  ~ In formfeed s -> int_text s n -> (exists l, In (l, n) ps) ->
  width_lo true b <= n <= width_hi true b ->
  exists bb', param_set_str (PEnum b ps) (Fmt false h) s off bb = Ok bb'
    /\ param_get_val (PEnum b ps) KInt off bb' = Ok (UInt n).
Proof.
  intros b ps s n off bb h Hwf Hoff Hff Ht Hl Hr. apply pt_wf_enum in Hwf. destruct Hwf as [Hb Hps].
  assert (enum_of_str b ps (Fmt false h) s = Ok (to_ctype t_uint32 n)) as E.
  { unfold enum_of_str. rewrite (proj2 (convertTo_spec t_int32 s n Hff)).
    - apply enum_of_int_Ok; auto.
    - split; auto. split; [|discriminate]. apply width_in_i32 in Hr; auto. }
  unfold param_set_str, to_bb_str. rewrite E. cbn [obind pt_size].
  destruct (bb_write_int bb (to_ctype t_uint32 n) b off) as [bb'| | |] eqn:W.
  2-4: destruct (write_read_word bb (to_ctype t_uint32 n) b off Hoff) as [? [W1 _]]; congruence.
  destruct (enum_stored b ps n off bb bb' Hb Hoff Hr W) as [S1 [S2 [S3 S4]]].
  exists bb'. auto.
Qed.

(** Writing back the word that is already there changes nothing. *)
Lemma write_same_word : forall bb u b off,
  bb_read_int bb b off = Ok (word_of b u) -> bb_write_int bb u b off = Ok bb.
Proof.
  intros bb u b off H. unfold bb_read_int, omap, bb_read in H.
  destruct (bb_access_ok bb off b) eqn:E; [|discriminate]. cbn [obind] in H. inversion H as [H1].
  apply bb_access_ok_spec in E.
  assert (List.length (slice bb off b) = b) as L by (apply slice_length; auto).
  assert (le_encode b u = slice bb off b) as Ee.
  { apply le_decode_inj; [rewrite le_encode_length; auto|]. rewrite le_decode_encode, pow256, H1. reflexivity. }
  unfold bb_write_int, bb_write. rewrite le_encode_length.
  unfold bb_access_ok. destruct (Nat.leb_spec (off + b) (bb_size bb)); [|unfold bb_size in *; lia].
  rewrite Ee. f_equal. apply overwrite_slice_same. auto.
Qed.

Lemma enum_write_back : forall b ps f n off bb,
  pt_wf (PEnum b ps) = true -> (off + b <= List.length bb)%nat ->
  NoDup (map fst ps) -> NoDup (map snd ps) ->
  (forall l v, In (l, v) ps -> ~ In formfeed l /\ forall w, ~ int_text l w) ->
  (exists l, In (l, n) ps) -> param_get_val (PEnum b ps) KInt off bb = Ok (UInt n) ->
  (f_raw f = true -> b = 4%nat -> f_hex f = false /\ 0 <= n) ->
  exists t, param_get_str (PEnum b ps) f off bb = Ok t
    /\ param_set_str (PEnum b ps) f t off bb = Ok bb.
Proof.
  intros b ps f n off bb Hwf Hoff Hn1 Hn2 Hlit [l Hl] Hget Hraw.
  apply pt_wf_enum in Hwf. destruct Hwf as [Hb Hps].
  pose proof (size_ok_pos b Hb) as Hb0.
  unfold param_get_val in Hget. cbn [pt_size] in Hget.
  destruct (bb_read_int bb b off) as [u| | |] eqn:Hu; try discriminate. cbn [obind from_bb_val] in Hget.
  inversion Hget as [En]. rewrite sign_extend_ct in En by auto.
  assert (0 <= u < 2 ^ (8 * Z.of_nat b)) as Hur.
  { unfold bb_read_int, omap, bb_read in Hu. destruct (bb_access_ok bb off b) eqn:Ea; [|discriminate].
    cbn [obind] in Hu. inversion Hu as [Hu']. apply bb_access_ok_spec in Ea.
    pose proof (le_decode_range (slice bb off b)) as R.
    rewrite slice_length, pow256 in R; auto. }
  rewrite word_of_small in En by auto.
  assert (width_lo true b <= n <= width_hi true b) as Hr by (subst n; apply two_compl_range; auto).
  assert (word_of b n = u) as Ewn.
  { rewrite <- En, word_two_compl by auto. apply word_of_small; auto. }
  assert (bb_write_int bb (to_ctype t_uint32 n) b off = Ok bb) as Wb.
  { apply write_same_word. rewrite word_of_u32 by auto. rewrite Ewn. auto. }
  assert (forall t, from_bb_str (PEnum b ps) f u = Ok t ->
     to_bb_str (PEnum b ps) f t = Ok (to_ctype t_uint32 n) ->
     exists t, param_get_str (PEnum b ps) f off bb = Ok t
       /\ param_set_str (PEnum b ps) f t off bb = Ok bb) as Fin.
  { intros t H1 H2. exists t. unfold param_get_str, param_set_str. cbn [pt_size]. rewrite Hu. cbn [obind].
    rewrite H1, H2. cbn [obind]. auto. }
  cbn [from_bb_str to_bb_str] in Fin. unfold enum_to_str in Fin.
  destruct (f_raw f) eqn:Ef.
  - assert (forall v, v = u -> -2147483648 <= v <= 2147483647 ->
       enum_of_int b ps f v = Ok (to_ctype t_uint32 n)) as Ki.
    { intros v -> Hv. apply enum_of_int_Ok; auto; [|eauto]. rewrite Ef. rewrite word_of_small; auto. }
    assert (u <= 2147483647) as Hu31.
    { destruct (Nat.eq_dec b 4) as [->|Hb4].
      - destruct (Hraw eq_refl eq_refl) as [_ H0]. unfold width_hi in Hr. pows.
        rewrite <- Ewn. rewrite word_of_small; pows; lia.
      - clear - Hb Hb4 Hur. unfold size_ok in Hb. destruct Hb as [->|[->| ->]]; pows; lia. }
    destruct (f_hex f) eqn:Eh.
    + assert (b < 4)%nat as Hb4.
      { unfold size_ok in Hb. destruct (Nat.eq_dec b 4) as [E4|]; [|lia]. destruct (Hraw eq_refl E4); discriminate. }
      unfold make_encodable in Fin. destruct (Nat.ltb_spec b 4); [|lia]. cbn [omap obind] in Fin.
      assert (Z.land u (Z.shiftl 1 (8 * Z.of_nat b) - 1) = u) as El.
      { rewrite Z.shiftl_1_l. replace (2 ^ (8 * Z.of_nat b) - 1) with (Z.ones (8 * Z.of_nat b)).
        - rewrite Z.land_ones by lia. apply Z.mod_small. auto.
        - rewrite Z.ones_equiv. lia. }
      rewrite El in Fin. apply (Fin (print_hex (2 * b) u)); auto.
      unfold enum_of_str. rewrite convertTo_print_hex; [apply Ki; lia|lia|].
      change (ct_lo t_int32) with (-2147483648). change (ct_hi t_int32) with 2147483647. lia.
    + apply (Fin (print_dec u)); auto. unfold enum_of_str. rewrite convertTo_print_dec; [apply Ki; lia|].
      change (ct_lo t_int32) with (-2147483648). change (ct_hi t_int32) with 2147483647. lia.
  - rewrite sign_extend_ct in Fin by auto. rewrite word_of_small in Fin by auto. rewrite En in Fin.
    rewrite (enum_literal_In ps l n Hn2 Hl) in Fin. apply (Fin l); auto.
    unfold enum_of_str. destruct (Hlit l n Hl) as [Hff Hnt].
    destruct (convertTo t_int32 l) as [v|] eqn:Ec.
    + exfalso. apply convertTo_spec in Ec; auto. apply (Hnt v). tauto.
    + rewrite (enum_numerical_In ps l n) by auto. apply enum_of_int_Ok; eauto. rewrite Ef. auto.
Qed.

(** Reading then writing back any integer parameter, in every format. *)
Lemma int_write_back : forall sg b lo hi f off bb v,
  pt_wf (PInt sg b lo hi) = true -> (off + b <= List.length bb)%nat ->
  bb_read_int bb b off = Ok (word_of b v) -> lo <= v <= hi ->
  exists t, param_get_str (PInt sg b lo hi) f off bb = Ok t
    /\ param_set_str (PInt sg b lo hi) f t off bb = Ok bb.
Proof.
  intros sg b lo hi f off bb v Hwf Hoff Hu Hv. apply pt_wf_int in Hwf. destruct Hwf as [Hb [H1 [H2 H3]]].
  pose proof (size_ok_pos b Hb) as Hb0.
  exists (int_to_str sg b f (word_of b v)). unfold param_get_str, param_set_str. cbn [pt_size]. rewrite Hu.
  cbn [obind from_bb_str to_bb_str]. split; auto.
  assert (int_of_str sg b lo hi (int_to_str sg b f (word_of b v)) = Ok (to_ctype t_uint32 v)) as E.
  { unfold int_of_str, int_to_str. pose proof (word_of_range b v) as Rw.
    destruct (f_raw f && f_hex f).
    - rewrite is_hexadecimal_print_hex, andb_true_r.
      assert (convertTo (if sg then CType false b else CType sg b) (print_hex (2 * b) (word_of b v))
              = Some (word_of b v)) as ->.
      { apply convertTo_print_hex; [lia|]. destruct sg; unfold ct_lo, ct_hi; cbn [ct_signed ct_bytes]; lia. }
      assert (to_ctype (CType sg b) (word_of b v) = v) as ->.
      { destruct sg.
        - rewrite to_ctype_signed by auto. rewrite word_of_small by auto. apply two_compl_word; auto. lia.
        - rewrite to_ctype_unsigned. rewrite word_of_small by auto. apply word_of_small.
          unfold width_lo, width_hi in *. lia. }
      destruct (Z.ltb_spec v lo); [lia|]. destruct (Z.gtb_spec v hi); [lia|]. reflexivity.
    - destruct sg.
      + rewrite sign_extend_ct by auto. rewrite word_of_small by auto. rewrite two_compl_word by (auto; lia).
        rewrite is_hexadecimal_print_dec. cbn [andb].
        rewrite convertTo_print_dec by (unfold ct_lo, ct_hi; cbn [ct_signed ct_bytes]; unfold width_lo, width_hi in *; lia).
        rewrite to_ctype_id; [|auto|unfold ct_lo, ct_hi; cbn [ct_signed ct_bytes]; unfold width_lo, width_hi in *; lia].
        destruct (Z.ltb_spec v lo); [lia|]. destruct (Z.gtb_spec v hi); [lia|]. reflexivity.
      + cbn [andb]. assert (word_of b v = v) as Ev.
        { apply word_of_small. unfold width_lo, width_hi in *. lia. }
        rewrite Ev in *.
        rewrite convertTo_print_dec by (unfold ct_lo, ct_hi; cbn [ct_signed ct_bytes]; lia).
        rewrite to_ctype_id; [|auto|unfold ct_lo, ct_hi; cbn [ct_signed ct_bytes]; lia].
        destruct (Z.ltb_spec v lo); [lia|]. destruct (Z.gtb_spec v hi); [lia|]. reflexivity. }
  rewrite E. cbn [obind]. apply write_same_word. rewrite word_of_u32 by auto. auto.
Qed.
