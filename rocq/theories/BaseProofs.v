(** Lemmas on the common vocabulary. *)
From Coq Require Import List Arith ZArith Bool Ascii String Lia.
From Verif Require Import Base.
Import ListNotations.

Lemma char_eqb_eq : forall a b, char_eqb a b = true <-> a = b.
Proof. intros; apply Ascii.eqb_eq. Qed.

Lemma char_eqb_refl : forall a, char_eqb a a = true.
Proof. intros; apply Ascii.eqb_refl. Qed.

Lemma char_eqb_neq : forall a b, char_eqb a b = false <-> a <> b.
Proof. intros; apply Ascii.eqb_neq. Qed.

Lemma str_eqb_eq : forall a b, str_eqb a b = true <-> a = b.
Proof.
  induction a as [|x a IH]; destruct b as [|y b]; simpl; try (split; congruence).
  rewrite andb_true_iff, char_eqb_eq, IH.
  split; [intros [-> ->]; auto | intros H; inversion H; auto].
Qed.

Lemma str_eqb_refl : forall a, str_eqb a a = true.
Proof. intros; apply str_eqb_eq; auto. Qed.

Lemma str_eqb_neq : forall a b, str_eqb a b = false <-> a <> b.
Proof.
  intros; destruct (str_eqb a b) eqn:E.
  - apply str_eqb_eq in E. split; congruence.
  - split; auto. intros _ H. apply str_eqb_eq in H. congruence.
Qed.

Lemma str_eqb_sym : forall a b, str_eqb a b = str_eqb b a.
Proof.
  intros. destruct (str_eqb a b) eqn:E.
  - apply str_eqb_eq in E; subst. symmetry. apply str_eqb_refl.
  - destruct (str_eqb b a) eqn:E2; auto. apply str_eqb_eq in E2; subst.
    rewrite str_eqb_refl in E; congruence.
Qed.

Definition str_eq_dec : forall a b : str, {a = b} + {a <> b} := list_eq_dec ascii_dec.

Lemma in_chars_In : forall cs c, in_chars cs c = true <-> In c cs.
Proof.
  unfold in_chars; intros. rewrite existsb_exists. split.
  - intros [x [H1 H2]]. apply char_eqb_eq in H2. subst; auto.
  - intros H; exists c; split; auto. apply char_eqb_refl.
Qed.

Lemma in_chars_false : forall cs c, in_chars cs c = false <-> ~ In c cs.
Proof.
  intros. rewrite <- in_chars_In. destruct (in_chars cs c); split; congruence.
Qed.

(** ** Bytes *)

Lemma bval_range : forall b, (0 <= bval b < 256)%Z.
Proof.
  intros b. unfold bval.
  assert (H : (N_of_ascii b < 256)%N).
  { destruct b as [b0 b1 b2 b3 b4 b5 b6 b7].
    destruct b0, b1, b2, b3, b4, b5, b6, b7; simpl; lia. }
  lia.
Qed.

Lemma bval_byte_of : forall z, bval (byte_of z) = (z mod 256)%Z.
Proof.
  intros z. unfold bval, byte_of.
  pose proof (Z.mod_pos_bound z 256 ltac:(lia)).
  rewrite N_ascii_embedding by lia. lia.
Qed.

Lemma byte_of_bval : forall b, byte_of (bval b) = b.
Proof.
  intros b. unfold byte_of. pose proof (bval_range b).
  rewrite Z.mod_small by lia. unfold bval. rewrite N2Z.id.
  apply ascii_N_embedding.
Qed.

Lemma bval_inj : forall a b, bval a = bval b -> a = b.
Proof. intros a b H. rewrite <- (byte_of_bval a), <- (byte_of_bval b), H. auto. Qed.

Lemma byte_of_mod : forall z, byte_of (z mod 256) = byte_of z.
Proof. intros; unfold byte_of. rewrite Z.mod_mod by lia. auto. Qed.

Lemma byte_of_add_256 : forall b r, (0 <= b < 256)%Z -> byte_of (b + 256 * r) = byte_of b.
Proof.
  intros. unfold byte_of. f_equal. f_equal.
  rewrite Z.mul_comm, Z.mod_add by lia. auto.
Qed.

Lemma le_encode_length : forall n z, List.length (le_encode n z) = n.
Proof. induction n; simpl; intros; auto. Qed.

Lemma pow256_S : forall n, (256 ^ Z.of_nat (S n) = 256 * 256 ^ Z.of_nat n)%Z.
Proof. intros. rewrite Nat2Z.inj_succ, Z.pow_succ_r by lia. auto. Qed.

Lemma pow256_pos : forall n, (0 < 256 ^ Z.of_nat n)%Z.
Proof. intros; apply Z.pow_pos_nonneg; lia. Qed.

Lemma le_decode_encode : forall n z,
  le_decode (le_encode n z) = (z mod 256 ^ Z.of_nat n)%Z.
Proof.
  induction n; intros z.
  - simpl. rewrite Z.mod_1_r. auto.
  - rewrite pow256_S. cbn [le_encode le_decode]. rewrite bval_byte_of, IHn.
    pose proof (pow256_pos n).
    rewrite Z.rem_mul_r by lia. lia.
Qed.

Lemma le_decode_range : forall l, (0 <= le_decode l < 256 ^ Z.of_nat (List.length l))%Z.
Proof.
  induction l as [|b l IH].
  - simpl; lia.
  - cbn [le_decode List.length]. rewrite pow256_S.
    pose proof (bval_range b). lia.
Qed.

Lemma le_encode_decode : forall l, le_encode (List.length l) (le_decode l) = l.
Proof.
  induction l as [|b l IH]; auto.
  cbn [List.length le_encode le_decode].
  pose proof (bval_range b).
  rewrite byte_of_add_256 by lia. rewrite byte_of_bval.
  replace ((bval b + 256 * le_decode l) / 256)%Z with (le_decode l).
  - rewrite IH; auto.
  - rewrite Z.mul_comm, Z.div_add by lia. rewrite Z.div_small by lia. lia.
Qed.

Lemma le_decode_inj : forall l1 l2,
  List.length l1 = List.length l2 -> le_decode l1 = le_decode l2 -> l1 = l2.
Proof.
  intros l1 l2 Hl Hd. rewrite <- (le_encode_decode l1), <- (le_encode_decode l2), Hl, Hd. auto.
Qed.

Lemma le_encode_mod : forall n z, le_encode n (z mod 256 ^ Z.of_nat n) = le_encode n z.
Proof.
  intros. rewrite <- le_decode_encode.
  pose proof (le_encode_decode (le_encode n z)). rewrite le_encode_length in H. auto.
Qed.

Lemma le_decode_app : forall a b,
  le_decode (a ++ b) = (le_decode a + 256 ^ Z.of_nat (List.length a) * le_decode b)%Z.
Proof.
  induction a as [|x a IH]; intros b.
  - cbn [app le_decode List.length Z.of_nat]. rewrite Z.pow_0_r. lia.
  - cbn [app le_decode List.length]. rewrite IH, pow256_S. ring.
Qed.

(** ** Slices and overwriting *)

Section Slices.
  Context {A : Type}.
  Implicit Types (l d : list A).

  Lemma overwrite_length : forall l off d,
    off + List.length d <= List.length l -> List.length (overwrite l off d) = List.length l.
  Proof.
    intros. unfold overwrite. rewrite !app_length, firstn_length, skipn_length. lia.
  Qed.

  Lemma slice_length : forall l off n,
    off + n <= List.length l -> List.length (slice l off n) = n.
  Proof. intros. unfold slice. rewrite firstn_length, skipn_length. lia. Qed.

  Lemma slice_length_le : forall l off n, List.length (slice l off n) <= n.
  Proof. intros. unfold slice. rewrite firstn_length. lia. Qed.

  Lemma slice_overwrite_same : forall l off d,
    off + List.length d <= List.length l -> slice (overwrite l off d) off (List.length d) = d.
  Proof.
    intros. unfold slice, overwrite.
    rewrite skipn_app, skipn_all2 by (rewrite firstn_length; lia).
    rewrite firstn_length, Nat.min_l by lia. rewrite Nat.sub_diag. simpl.
    rewrite firstn_app, Nat.sub_diag, firstn_all. simpl. apply app_nil_r.
  Qed.

  Lemma nth_error_overwrite_in : forall l off d i,
    off + List.length d <= List.length l -> off <= i < off + List.length d ->
    nth_error (overwrite l off d) i = nth_error d (i - off).
  Proof.
    intros. unfold overwrite.
    rewrite nth_error_app2 by (rewrite firstn_length; lia).
    rewrite firstn_length, Nat.min_l by lia.
    rewrite nth_error_app1 by lia. auto.
  Qed.

  Lemma nth_error_skipn : forall l n i, nth_error (skipn n l) i = nth_error l (n + i).
  Proof.
    induction l as [|x l IH]; intros n i.
    - rewrite skipn_nil. destruct i, n; auto.
    - destruct n; simpl; auto.
  Qed.

  Lemma nth_error_firstn : forall l n i, i < n -> nth_error (firstn n l) i = nth_error l i.
  Proof.
    induction l as [|x l IH]; intros n i H.
    - rewrite firstn_nil. auto.
    - destruct n; [lia|]. destruct i; simpl; auto. apply IH; lia.
  Qed.

  Lemma nth_error_firstn_none : forall l n i, n <= i -> nth_error (firstn n l) i = None.
  Proof.
    intros. apply nth_error_None. rewrite firstn_length. lia.
  Qed.

  Lemma nth_error_overwrite_out : forall l off d i,
    off + List.length d <= List.length l -> i < off \/ off + List.length d <= i ->
    nth_error (overwrite l off d) i = nth_error l i.
  Proof.
    intros l off d i Hb Hi. unfold overwrite. destruct Hi.
    - rewrite nth_error_app1 by (rewrite firstn_length; lia).
      apply nth_error_firstn; auto.
    - rewrite nth_error_app2 by (rewrite firstn_length; lia).
      rewrite firstn_length, Nat.min_l by lia.
      rewrite nth_error_app2 by lia.
      rewrite nth_error_skipn. f_equal. lia.
  Qed.

  Lemma nth_error_slice : forall l off n i,
    i < n -> nth_error (slice l off n) i = nth_error l (off + i).
  Proof.
    intros. unfold slice. rewrite nth_error_firstn by auto. apply nth_error_skipn.
  Qed.

  Lemma list_ext : forall l d, (forall i, nth_error l i = nth_error d i) -> l = d.
  Proof.
    induction l as [|x l IH]; destruct d as [|y d]; intros H; auto.
    - specialize (H 0); discriminate.
    - specialize (H 0); discriminate.
    - f_equal.
      + specialize (H 0). simpl in H. congruence.
      + apply IH. intros i. apply (H (S i)).
  Qed.

  Lemma slice_ext : forall l d off n off',
    (forall i, i < n -> nth_error l (off + i) = nth_error d (off' + i)) ->
    slice l off n = slice d off' n.
  Proof.
    intros. apply list_ext. intros i. destruct (Nat.lt_ge_cases i n).
    - rewrite !nth_error_slice by auto. auto.
    - assert (forall l0 o, nth_error (slice l0 o n) i = None) as E.
      { intros. apply nth_error_None. pose proof (slice_length_le l0 o n). lia. }
      rewrite !E. auto.
  Qed.

  Lemma slice_overwrite_out : forall l off d o n,
    off + List.length d <= List.length l -> o + n <= off \/ off + List.length d <= o ->
    slice (overwrite l off d) o n = slice l o n.
  Proof.
    intros. apply slice_ext. intros i Hi. apply nth_error_overwrite_out; lia.
  Qed.

  Lemma overwrite_slice_same : forall l off n,
    off + n <= List.length l -> overwrite l off (slice l off n) = l.
  Proof.
    intros. apply list_ext. intros i.
    destruct (Nat.lt_ge_cases i off).
    - apply nth_error_overwrite_out; rewrite ?slice_length; auto.
    - destruct (Nat.lt_ge_cases i (off + n)).
      + rewrite nth_error_overwrite_in by (rewrite ?slice_length; lia).
        rewrite nth_error_slice by lia. f_equal. lia.
      + apply nth_error_overwrite_out; rewrite ?slice_length; auto.
  Qed.

  Lemma overwrite_overwrite_same : forall l off d d',
    List.length d = List.length d' -> off + List.length d <= List.length l ->
    overwrite (overwrite l off d) off d' = overwrite l off d'.
  Proof.
    intros. apply list_ext. intros i.
    destruct (Nat.lt_ge_cases i off); [|destruct (Nat.lt_ge_cases i (off + List.length d))].
    - rewrite !nth_error_overwrite_out; rewrite ?overwrite_length; auto; lia.
    - rewrite !nth_error_overwrite_in; rewrite ?overwrite_length; auto; lia.
    - rewrite !nth_error_overwrite_out; rewrite ?overwrite_length; auto; lia.
  Qed.

  Lemma overwrite_comm : forall l o1 d1 o2 d2,
    o1 + List.length d1 <= List.length l -> o2 + List.length d2 <= List.length l ->
    o1 + List.length d1 <= o2 \/ o2 + List.length d2 <= o1 ->
    overwrite (overwrite l o1 d1) o2 d2 = overwrite (overwrite l o2 d2) o1 d1.
  Proof.
    intros l o1 d1 o2 d2 H1 H2 H3. apply list_ext. intros i.
    destruct (Nat.lt_ge_cases i o1); [|destruct (Nat.lt_ge_cases i (o1 + List.length d1))];
    (destruct (Nat.lt_ge_cases i o2); [|destruct (Nat.lt_ge_cases i (o2 + List.length d2))]);
    try lia;
    repeat first
      [ rewrite (nth_error_overwrite_in (overwrite l o1 d1) o2 d2) by (rewrite ?overwrite_length; lia)
      | rewrite (nth_error_overwrite_in (overwrite l o2 d2) o1 d1) by (rewrite ?overwrite_length; lia)
      | rewrite (nth_error_overwrite_in l o1 d1) by lia
      | rewrite (nth_error_overwrite_in l o2 d2) by lia
      | rewrite (nth_error_overwrite_out (overwrite l o1 d1) o2 d2) by (rewrite ?overwrite_length; lia)
      | rewrite (nth_error_overwrite_out (overwrite l o2 d2) o1 d1) by (rewrite ?overwrite_length; lia)
      | rewrite (nth_error_overwrite_out l o1 d1) by lia
      | rewrite (nth_error_overwrite_out l o2 d2) by lia ]; auto.
  Qed.

  Lemma slice_slice : forall l o1 n1 o2 n2,
    o2 + n2 <= n1 -> slice (slice l o1 n1) o2 n2 = slice l (o1 + o2) n2.
  Proof.
    intros. apply slice_ext. intros i Hi. rewrite nth_error_slice by lia. f_equal. lia.
  Qed.

  Lemma slice_all : forall l, slice l 0 (List.length l) = l.
  Proof. intros. unfold slice. simpl. apply firstn_all. Qed.

  Lemma overwrite_all : forall l d, List.length d = List.length l -> overwrite l 0 d = d.
  Proof.
    intros. unfold overwrite. simpl. rewrite skipn_all2 by lia. apply app_nil_r.
  Qed.

  (** Overwriting inside a slice. *)
  Lemma slice_overwrite_inside : forall l off n o d,
    off + n <= List.length l -> off <= o -> o + List.length d <= off + n ->
    slice (overwrite l o d) off n = overwrite (slice l off n) (o - off) d.
  Proof.
    intros. apply list_ext. intros i.
    destruct (Nat.lt_ge_cases i n).
    - rewrite nth_error_slice by auto.
      destruct (Nat.lt_ge_cases i (o - off)); [|destruct (Nat.lt_ge_cases i (o - off + List.length d))].
      + rewrite !nth_error_overwrite_out by (rewrite ?slice_length; lia).
        rewrite nth_error_slice; auto.
      + rewrite !nth_error_overwrite_in by (rewrite ?slice_length; lia). f_equal; lia.
      + rewrite !nth_error_overwrite_out by (rewrite ?slice_length; lia).
        rewrite nth_error_slice; auto.
    - assert (forall x : list A, List.length x = n -> nth_error x i = None) as E.
      { intros. apply nth_error_None. lia. }
      rewrite !E; auto.
      + rewrite overwrite_length; rewrite slice_length; lia.
      + apply slice_length. rewrite overwrite_length; lia.
  Qed.
End Slices.

Lemma list_sum_app : forall a b, list_sum (a ++ b) = list_sum a + list_sum b.
Proof. induction a; simpl; intros; auto. rewrite IHa; lia. Qed.

Lemma Forall2_len : forall A B (R : A -> B -> Prop) l1 l2, Forall2 R l1 l2 -> List.length l1 = List.length l2.
Proof. intros A B R l1 l2 H. induction H; simpl; auto. Qed.
