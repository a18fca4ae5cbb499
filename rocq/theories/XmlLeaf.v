(** Texts of the values of parameters that are read back, at the level of the memory. *)
From Coq Require Import List Arith ZArith Bool Ascii String Lia.
From Verif Require Import Base BaseProofs TextModel TextSpec TextProofs RealModel ParamTypeModel ParamTypeSpec BlackboardModel
  BlackboardProofs IntProofs BitModel BitSpec BitProofs ArrayModel ArraySpec ArrayProofs TreeModel TreeSpec TreeProofs MemSpec SyncModel DomainModel
  DomainSpec MgrModel MgrSpec ValueSpec ValueProofs EditProofs XmlModel XmlSpec XmlWords.
Import ListNotations.
Local Open Scope nat_scope.

(** The text [s] gives any memory the value that [bb] holds. *)
Definition brings (k : ekind) (raw : bool) (s : str) (off : nat) (bb : blackboard) : Prop :=
  forall h2 off2 bb2, off2 + size_of_kind k <= List.length bb2 ->
    exists bb2', leaf_set k (Fmt raw h2) [] s off2 0 bb2 = Ok (true, bb2')
      /\ (forall g rest, leaf_get k g rest off2 0 bb2' = leaf_get k g rest off 0 bb)
      /\ value_ok k off2 bb2'.

Lemma word_same : forall t g off bb off2 bb2, bb_read_int bb2 (pt_size t) off2 = bb_read_int bb (pt_size t) off ->
  param_get_str t g off2 bb2 = param_get_str t g off bb.
Proof. intros t g off bb off2 bb2 H. unfold param_get_str. rewrite H. auto. Qed.

Lemma param_back : forall t f raw off bb, pt_wf t = true -> restorable f raw (KdParam t) off bb ->
  exists s, leaf_get (KdParam t) f [] off 0 bb = Ok s /\ brings (KdParam t) (if spaced (KdParam t) then f_raw f else raw) s off bb.
Proof.
  intros t f raw off bb Wf [u [Rd R]]. pose proof (read_int_range _ _ _ _ Rd) as Hu.
  assert (forall h2, exists s u', from_bb_str t f u = Ok s /\ to_bb_str t (Fmt (if spaced (KdParam t) then f_raw f else raw) h2) s = Ok u'
            /\ word_of (pt_size t) u' = u) as X.
  { intros h2. destruct (word_back t f raw h2 u Wf Hu R) as [s [u' [A [B [C _]]]]]. eauto. }
  destruct (X true) as [s [_ [G _]]]. exists s. cbn [leaf_get]. rewrite Nat.sub_0_r. split; [unfold param_get_str; rewrite Rd; exact G|].
  intros h2 off2 bb2 L. cbn [size_of_kind] in L. destruct (X h2) as [s' [u' [G' [S W]]]]. assert (s' = s) as -> by congruence.
  destruct (write_read_word bb2 u' (pt_size t) off2 L) as [bb2' [W1 [_ [W2 _]]]]. rewrite W in W2. exists bb2'. cbn [leaf_set leaf_get]. rewrite !Nat.sub_0_r.
  split; [unfold param_set_str; rewrite S; cbn [obind]; rewrite W1; auto|]. split.
  - intros g rest. destruct rest; auto. apply word_same. congruence.
  - exists u. split; auto. apply R.
Qed.

Lemma cells_back : forall t f raw h2 n off bb, pt_wf t = true -> cell_restorable f t ->
  (forall j, j < n -> exists u, bb_read_int bb (pt_size t) (off + j * pt_size t) = Ok u /\ word_restorable f raw t u) ->
  exists l us, array_get_list t f n off bb = Ok l /\ List.length l = n
    /\ Forall2 (fun v u => to_bb_str t (Fmt (if spaced (KdParam t) then f_raw f else raw) h2) v = Ok u) l us
    /\ Forall plain_word l
    /\ forall j u, nth_error us j = Some u -> bb_read_int bb (pt_size t) (off + j * pt_size t) = Ok (word_of (pt_size t) u).
Proof.
  intros t f raw h2 n off bb Wf C. revert off. induction n as [|n IH]; intros off H.
  - exists [], []. split; [reflexivity|]. split; [reflexivity|]. split; [constructor|]. split; [constructor|]. intros [|j] u X; discriminate.
  - destruct (H 0 ltac:(lia)) as [u [Rd R]]. rewrite Nat.mul_0_l, Nat.add_0_r in Rd. pose proof (read_int_range _ _ _ _ Rd) as Hu.
    destruct (word_back t f raw h2 u Wf Hu R) as [s [u' [A [B [D P]]]]].
    destruct (IH (off + pt_size t)) as [l [us [L1 [L2 [L3 [L4 L5]]]]]].
    { intros j Hj. destruct (H (S j) ltac:(lia)) as [w [E Hw]]. exists w. split; auto.
      replace (off + pt_size t + j * pt_size t) with (off + S j * pt_size t) by lia. auto. }
    exists (s :: l), (u' :: us). cbn [array_get_list]. unfold param_get_str. rewrite Rd. cbn [obind]. rewrite A. cbn [obind]. rewrite L1. cbn [obind].
    split; auto. split; [simpl; auto|]. split; [constructor; auto|]. split; [constructor; auto|].
    intros [|j] w K; simpl in K.
    + inversion K; subst w. rewrite Nat.mul_0_l, Nat.add_0_r, D. auto.
    + replace (off + S j * pt_size t) with (off + pt_size t + j * pt_size t) by lia. auto.
Qed.

Lemma array_back : forall t len f raw off bb, kind_wf (KdArray t len) -> restorable f raw (KdArray t len) off bb ->
  exists s, leaf_get (KdArray t len) f [] off 0 bb = Ok s
    /\ brings (KdArray t len) (if spaced (KdArray t len) then f_raw f else raw) s off bb.
Proof.
  intros t len f raw off bb [Wf Hlen] [C H].
  assert (forall h2, exists l us, array_get_list t f len off bb = Ok l /\ List.length l = len
    /\ Forall2 (fun v u => to_bb_str t (Fmt (if spaced (KdParam t) then f_raw f else raw) h2) v = Ok u) l us
    /\ Forall plain_word l
    /\ forall j u, nth_error us j = Some u -> bb_read_int bb (pt_size t) (off + j * pt_size t) = Ok (word_of (pt_size t) u)) as X
    by (intros h2; apply cells_back; auto).
  destruct (X true) as [l [_ [G _]]]. exists (join (lit " ") l). split.
  { cbn [leaf_get]. unfold array_access_get, array_get_text. cbn [array_index obind]. rewrite Nat.sub_0_r, G. auto. }
  intros h2 off2 bb2 L. destruct (X h2) as [l' [us [G' [Ln [S [P R]]]]]]. assert (l' = l) as -> by congruence.
  pose proof (Forall2_len _ _ _ _ _ S) as LL. cbn [size_of_kind] in L. unfold array_footprint in L.
  assert (runs array_delimiters (join (lit " ") l) l) as Rn.
  { apply split_merge_spec. apply (split_join_merge array_delimiters " "%char l); [simpl; auto|]. auto. }
  destruct (array_set_text_Ok t len _ 0 off2 _ l us bb2 Rn S) as [bb2' [E St]]; try lia.
  rewrite Nat.mul_0_l, Nat.add_0_r in St. destruct St as [_ [St _]].
  assert (forall j, j < len -> exists u, bb_read_int bb2' (pt_size t) (off2 + j * pt_size t) = Ok u
            /\ bb_read_int bb (pt_size t) (off + j * pt_size t) = Ok u) as Rs.
  { intros j Hj. destruct (nth_error us j) as [u|] eqn:N; [|apply nth_error_None in N; lia]. exists (word_of (pt_size t) u). split; auto. }
  exists bb2'. cbn [leaf_set leaf_get]. unfold array_access_set, array_access_get. cbn [array_index]. rewrite !Nat.sub_0_r.
  split; [exact E|]. split.
  - intros g rest. destruct (array_index len rest) as [[i|]| | |] eqn:Ei; auto; cbn [obind].
    + assert (i < len) as Hi.
      { revert Ei. clear - Hlen. destruct rest as [|x r]; cbn [array_index]; [discriminate|].
        repeat match goal with |- context [match ?x with _ => _ end] => destruct x eqn:? end; try discriminate;
          intros Q; inversion Q; subst; repeat match goal with H : (_ <=? _)%Z = false |- _ => apply Z.leb_gt in H end; lia. }
      apply word_same. destruct (Rs i Hi) as [u [-> ->]]. auto.
    + unfold array_get_text. f_equal.
      apply (cells_read t g len us off2 bb2' off bb); auto. lia.
  - intros j Hj. destruct (H j Hj) as [u [Rd Rw]]. destruct (Rs j Hj) as [u2 [R1 R2]]. exists u2. split; auto.
    assert (u2 = u) as -> by congruence. apply Rw.
Qed.

Lemma bit_back : forall t f raw off bb, bit_wf t = true -> off + bt_block t <= List.length bb -> value_ok (KdBit t) off bb ->
  exists s, leaf_get (KdBit t) f [] off 0 bb = Ok s /\ brings (KdBit t) raw s off bb.
Proof.
  intros t f raw off bb Wf L [w [Rd Hm]]. rewrite <- (bit_field_arith t w Wf) in Hm. set (v := bit_field t w) in *.
  pose proof (bit_field_range t w Wf) as Hv. fold v in Hv.
  assert (forall g, bitparam_get_str t g off bb = Ok (if f_raw g && f_hex g then lit "0x" ++ print_base 16 v else print_dec v)) as G.
  { intros g. unfold bitparam_get_str. rewrite Rd. auto. }
  destruct (bit_set_core t v off bb Wf L (proj1 Hv)) as [A _]. destruct (A Hm) as [b1 [_ [Ef [G1 _]]]].
  destruct (bit_effect_reads t v off bb b1 Wf ltac:(lia) Ef) as [_ [T _]]. destruct (T f) as [s [Gs [Pn _]]].
  exists s. cbn [leaf_get]. rewrite Nat.sub_0_r. split; [rewrite G, <- G1; auto|].
  intros h2 off2 bb2 L2. cbn [size_of_kind] in L2. destruct (bit_set_text t s v off2 bb2 Wf L2 Pn) as [B _].
  destruct (B Hm) as [bb2' [E2 [Ef2 [[w2 [Rd2 Hw2]] _]]]]. rewrite <- (bit_field_arith t w2 Wf) in Hw2.
  exists bb2'. cbn [leaf_set leaf_get]. rewrite !Nat.sub_0_r, E2. split; auto. split.
  - intros g rest. destruct rest; auto. rewrite G. unfold bitparam_get_str. rewrite Rd2. cbn [obind]. unfold bit_from_bb_str. rewrite Hw2. auto.
  - exists w2. split; auto. rewrite <- (bit_field_arith t w2 Wf), Hw2. auto.
Qed.

Lemma string_back : forall max f raw off bb, value_ok (KdString max) off bb ->
  exists s, leaf_get (KdString max) f [] off 0 bb = Ok s /\ brings (KdString max) raw s off bb.
Proof.
  intros max f raw off bb T. destruct (string_get_terminated max off bb T) as [s [G [Hl [Hz _]]]].
  exists s. cbn [leaf_get]. rewrite Nat.sub_0_r. split; auto. intros h2 off2 bb2 L.
  destruct (proj1 (string_set_spec max s off2 bb2 L) Hl) as [bb2' [E _]]. exists bb2'. cbn [leaf_set leaf_get]. rewrite !Nat.sub_0_r, E.
  split; auto. split.
  - intros g rest. destruct rest; auto. rewrite G. eapply string_set_get; eauto.
  - eapply string_set_terminated; eauto.
Qed.

Lemma leaf_back : forall k f raw off bb, kind_wf k -> off + size_of_kind k <= List.length bb -> restorable f raw k off bb ->
  exists s, leaf_get k f [] off 0 bb = Ok s /\ brings k (if spaced k then f_raw f else raw) s off bb.
Proof.
  intros k f raw off bb Wk L R. destruct k; try contradiction.
  - apply bit_back; auto.
  - apply (param_back t f raw off bb Wk R).
  - apply (array_back t len f raw off bb Wk R).
  - apply string_back. auto.
Qed.
