(** A write of a parameter depends on nothing but its own bits. *)
From Coq Require Import List Arith ZArith Bool Ascii String Lia.
From Verif Require Import Base BaseProofs TextModel TextSpec TextProofs RealModel ParamTypeModel ParamTypeSpec BlackboardModel
  BlackboardProofs IntProofs BitModel BitSpec BitProofs ArrayModel ArraySpec ArrayProofs TreeModel TreeSpec TreeProofs MemSpec MemProofs.
Import ListNotations.
Local Open Scope nat_scope.

Lemma write_bytes_local : forall o1 b1 o2 b2 n d bytes, same_bytes o1 b1 o2 b2 n -> d + List.length bytes <= n ->
  same_bytes o1 (overwrite b1 (o1 + d) bytes) o2 (overwrite b2 (o2 + d) bytes) n.
Proof.
  intros o1 b1 o2 b2 n d bytes [L1 [L2 H]] Hd. split; [rewrite overwrite_length; lia|]. split; [rewrite overwrite_length; lia|].
  intros i Hi. destruct (Nat.lt_ge_cases i d) as [C|C]; [rewrite !nth_error_overwrite_out by lia; auto|].
  destruct (Nat.lt_ge_cases i (d + List.length bytes)) as [D|D].
  - rewrite !nth_error_overwrite_in by lia. f_equal. lia.
  - rewrite !nth_error_overwrite_out by lia. auto.
Qed.

Lemma write_int_local : forall o1 b1 o2 b2 n d u size, same_bytes o1 b1 o2 b2 n -> d + size <= n ->
  exists b1' b2', bb_write_int b1 u size (o1 + d) = Ok b1' /\ bb_write_int b2 u size (o2 + d) = Ok b2' /\ same_bytes o1 b1' o2 b2' n.
Proof.
  intros o1 b1 o2 b2 n d u size S Hd. pose proof S as [L1 [L2 _]].
  exists (overwrite b1 (o1 + d) (le_encode size u)), (overwrite b2 (o2 + d) (le_encode size u)).
  unfold bb_write_int, bb_write, bb_access_ok, bb_size. rewrite le_encode_length.
  destruct (Nat.leb_spec (o1 + d + size) (List.length b1)); [|lia]. destruct (Nat.leb_spec (o2 + d + size) (List.length b2)); [|lia].
  split; auto. split; auto. apply write_bytes_local; auto. rewrite le_encode_length. auto.
Qed.

Lemma array_list_local : forall t f vals o1 o2 n d b1 b2, same_bytes o1 b1 o2 b2 n -> d + List.length vals * pt_size t <= n ->
  exists ok b1' b2', array_set_list t f vals (o1 + d) b1 = Ok (ok, b1') /\ array_set_list t f vals (o2 + d) b2 = Ok (ok, b2') /\ same_bytes o1 b1' o2 b2' n.
Proof.
  intros t f vals. induction vals as [|v vals IH]; intros o1 o2 n d b1 b2 S H; cbn [array_set_list List.length] in *.
  - exists true, b1, b2. auto.
  - destruct (to_bb_str_cases t f v) as [[u ->]| ->]; [|exists false, b1, b2; auto].
    destruct (write_int_local o1 b1 o2 b2 n d u (pt_size t) S ltac:(lia)) as [c1 [c2 [E1 [E2 S2]]]]. rewrite E1, E2. cbn [obind].
    rewrite <- !Nat.add_assoc. apply IH; auto. lia.
Qed.

Lemma leaf_bytes_local : forall k f s o1 b1 o2 b2, kind_wf k -> (forall t, k <> KdBit t) -> same_bytes o1 b1 o2 b2 (size_of_kind k) ->
  exists ok b1' b2', leaf_set k f [] s o1 0 b1 = Ok (ok, b1') /\ leaf_set k f [] s o2 0 b2 = Ok (ok, b2') /\ same_bytes o1 b1' o2 b2' (size_of_kind k).
Proof.
  intros k f s o1 b1 o2 b2 W NB S. unfold leaf_set. rewrite !Nat.sub_0_r. destruct k; try contradiction; try congruence; cbn [size_of_kind] in *.
  - unfold param_set_str. destruct (to_bb_str_cases t f s) as [[u ->]| ->]; cbn [obind committed]; [|exists false, b1, b2; auto].
    destruct (write_int_local o1 b1 o2 b2 _ 0 u (pt_size t) S ltac:(lia)) as [c1 [c2 [E1 [E2 S2]]]]. rewrite !Nat.add_0_r in E1, E2.
    rewrite E1, E2. cbn [committed]. exists true, c1, c2. auto.
  - unfold array_access_set. cbn [array_index]. unfold array_set_text. rewrite !Nat.mul_0_l, !Nat.add_0_r, !Nat.sub_0_r. unfold array_footprint in *.
    destruct (Nat.ltb_spec len (List.length (split s array_delimiters true))); [exists false, b1, b2; auto|].
    destruct (array_list_local t f (split s array_delimiters true) o1 o2 _ 0 b1 b2 S) as [ok [c1 [c2 [E1 [E2 S2]]]]]; [nia|].
    rewrite !Nat.add_0_r in E1, E2. exists ok, c1, c2. split; [exact E1|]. split; [exact E2|]. exact S2.
  - pose proof S as [L1 [L2 _]]. unfold string_set. destruct (Nat.leb_spec (string_size max) (List.length s)); cbn [committed]; [exists false, b1, b2; auto|].
    assert (forall o b, o + string_size max <= List.length b -> bb_write_string b s o = Ok (overwrite b o (s ++ [zero]))) as X.
    { intros o b L. apply bb_write_string_Ok. split; auto. unfold bb_size. lia. }
    rewrite (X o1 b1 L1), (X o2 b2 L2). cbn [committed]. exists true. eexists. eexists. split; [reflexivity|]. split; [reflexivity|].
    pose proof (write_bytes_local o1 b1 o2 b2 _ 0 (s ++ [zero]) S) as Y. rewrite !Nat.add_0_r in Y. apply Y. rewrite app_length. cbn [List.length]. lia.
Qed.

(** The bits of a parameter, from the start of its storage. *)
Definition kind_bit (k : ekind) (j : nat) : bool :=
  match k with
  | KdBit t => (Z.to_nat (bt_pos t) <=? j) && (j <? Z.to_nat (bt_pos t + bt_size t))
  | _ => j <? 8 * size_of_kind k
  end.

Lemma same_bytes_bit : forall o1 b1 o2 b2 n i, same_bytes o1 b1 o2 b2 n -> i < 8 * n -> mbit b1 (8 * o1 + i) = mbit b2 (8 * o2 + i).
Proof.
  intros o1 b1 o2 b2 n i [_ [_ H]] Hi. unfold mbit. rewrite !div8, !mod8.
  assert (i / 8 < n) as D by (apply Nat.div_lt_upper_bound; lia). rewrite (H _ D). auto.
Qed.

Lemma leaf_set_local : forall k f s o1 b1 o2 b2, kind_wf k -> o1 + size_of_kind k <= List.length b1 -> o2 + size_of_kind k <= List.length b2 ->
  (forall j, kind_bit k j = true -> mbit b1 (8 * o1 + j) = mbit b2 (8 * o2 + j)) ->
  exists ok b1' b2', leaf_set k f [] s o1 0 b1 = Ok (ok, b1') /\ leaf_set k f [] s o2 0 b2 = Ok (ok, b2')
    /\ forall j, kind_bit k j = true -> mbit b1' (8 * o1 + j) = mbit b2' (8 * o2 + j).
Proof.
  intros k f s o1 b1 o2 b2 W L1 L2 H.
  assert ((exists t, k = KdBit t) \/ forall t, k <> KdBit t) as [[t ->]|NB] by (destruct k; try (right; discriminate); left; eauto).
  - cbn [leaf_set]. rewrite !Nat.sub_0_r, !bitparam_set_str_core. pose proof (proj1 (strtoull0_range s)) as P. cbn [kind_wf size_of_kind] in W, L1, L2.
    destruct (bit_set_core t (strtoull0 s) o1 b1 W L1 P) as [A1 B1]. destruct (bit_set_core t (strtoull0 s) o2 b2 W L2 P) as [A2 B2].
    destruct (Z_le_gt_dec (strtoull0 s) (bt_max t)) as [L|L].
    + destruct (A1 L) as [c1 [E1 [[F1 [_ [w1 [w1' [_ [R1 X1]]]]]] _]]]. destruct (A2 L) as [c2 [E2 [[F2 [_ [w2 [w2' [_ [R2 X2]]]]]] _]]]. rewrite E1, E2. cbn [committed].
      exists true, c1, c2. split; auto. split; auto. intros j Hj. cbn [kind_bit] in Hj. apply andb_true_iff in Hj.
      rewrite Nat.leb_le, Nat.ltb_lt in Hj. pose proof (bit_wf_spec t W) as [Hb [P0 [P1 [P2 [P3 _]]]]].
      assert (forall c o w', List.length c = List.length c -> o + bt_block t <= List.length c -> bb_read_int c (bt_block t) o = Ok w' ->
                mbit c (8 * o + j) = Z.testbit w' (Z.of_nat j)) as K.
      { intros c o w' _ Lc R. rewrite read_int_fits in R by auto. inversion R. rewrite mbit_testbit, mbit_slice.
        destruct (Nat.ltb_spec j (8 * bt_block t)); [auto|lia]. }
      rewrite (K c1 o1 w1'), (K c2 o2 w2'), X1, X2 by (auto; lia).
      assert ((bt_pos t <=? Z.of_nat j)%Z && (Z.of_nat j <? bt_pos t + bt_size t)%Z = true) as ->; auto.
      apply andb_true_iff. rewrite Z.leb_le, Z.ltb_lt. lia.
    + rewrite B1, B2 by lia. cbn [committed]. exists false, b1, b2. auto.
  - assert (same_bytes o1 b1 o2 b2 (size_of_kind k)) as S.
    { apply same_bytes_mbit; auto. intros i Hi. apply H. destruct k; try (apply Nat.ltb_lt; auto). destruct (NB t); auto. }
    destruct (leaf_bytes_local k f s o1 b1 o2 b2 W NB S) as [ok [c1 [c2 [E1 [E2 S2]]]]]. exists ok, c1, c2. split; auto. split; auto.
    intros j Hj. apply (same_bytes_bit _ _ _ _ _ j S2). destruct k; try (apply Nat.ltb_lt in Hj; auto). destruct (NB t); auto.
Qed.

(** So does the text shown. *)
Lemma leaf_get_local : forall k f rest o1 b1 o2 b2, kind_wf k -> o1 + size_of_kind k <= List.length b1 -> o2 + size_of_kind k <= List.length b2 ->
  (forall max, k = KdString max -> terminated max o1 b1) ->
  (forall j, kind_bit k j = true -> mbit b1 (8 * o1 + j) = mbit b2 (8 * o2 + j)) ->
  leaf_get k f rest o1 0 b1 = leaf_get k f rest o2 0 b2.
Proof.
  intros k f rest o1 b1 o2 b2 W L1 L2 T H.
  assert ((exists t, k = KdBit t) \/ forall t, k <> KdBit t) as [[t ->]|NB] by (destruct k; try (right; discriminate); left; eauto).
  - unfold leaf_get. rewrite !Nat.sub_0_r. destruct rest; auto. unfold bitparam_get_str. cbn [size_of_kind] in L1, L2.
    rewrite !read_int_fits by auto. cbn [obind].
    unfold bit_from_bb_str. replace (bit_field t (le_decode (slice b1 o1 (bt_block t)))) with (bit_field t (le_decode (slice b2 o2 (bt_block t)))); auto.
    apply Z.bits_inj'. intros n Hn. rewrite !bit_field_testbit by auto. destruct (n <? bt_size t)%Z eqn:Hl; auto. cbn [andb].
    assert (bit_wf t = true) as W' by exact W. apply bit_wf_spec in W'.
    replace (n + bt_pos t)%Z with (Z.of_nat (Z.to_nat (n + bt_pos t))) by lia. rewrite !mbit_testbit, !mbit_slice.
    destruct (Z.to_nat (n + bt_pos t) <? 8 * bt_block t) eqn:E; auto. symmetry. apply H. cbn [kind_bit]. apply andb_true_iff. rewrite Nat.leb_le, Nat.ltb_lt. lia.
  - apply leaf_get_same; auto. apply same_bytes_mbit; auto. intros i Hi. apply H. destruct k; try (apply Nat.ltb_lt; auto). destruct (NB t); auto.
Qed.
