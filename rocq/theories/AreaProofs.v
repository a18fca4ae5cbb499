(** Proofs about areas: copies between memories. *)
From Coq Require Import List Arith ZArith Bool Ascii Lia Permutation.
From Verif Require Import Base BaseProofs ParamTypeModel BlackboardModel BlackboardProofs BitModel BitProofs TreeModel TreeSpec
  TreeProofs MemSpec MemProofs SyncModel DomainModel DomainSpec.
Import ListNotations.
Local Open Scope nat_scope.

Lemma area_size_storage : forall e, area_size e = storage_size e.
Proof. auto. Qed.

Lemma field_bit_bit : forall e t j, e_kind e = KdBit t -> bit_wf t = true ->
  field_bit e j = ((bt_pos t <=? Z.of_nat j) && (Z.of_nat j <? bt_pos t + bt_size t))%Z.
Proof.
  intros e t j K W. unfold field_bit. rewrite K. apply bit_wf_spec in W. destruct W as [_ [W1 [W2 _]]].
  destruct (Nat.leb_spec (Z.to_nat (bt_pos t)) j), (Z.leb_spec (bt_pos t) (Z.of_nat j)); try lia;
  destruct (Nat.ltb_spec j (Z.to_nat (bt_pos t + bt_size t))), (Z.ltb_spec (Z.of_nat j) (bt_pos t + bt_size t)); try lia; auto.
Qed.

(** The word of a block as seen bit by bit, after a merge of two words. *)
Lemma mbit_merge : forall t dst src j, bit_wf t = true -> (0 <= dst < 2 ^ (8 * Z.of_nat (bt_block t)))%Z ->
  j < 8 * bt_block t ->
  mbit (le_encode (bt_block t) (bit_merge t dst src)) j
  = if ((bt_pos t <=? Z.of_nat j) && (Z.of_nat j <? bt_pos t + bt_size t))%Z
    then Z.testbit src (Z.of_nat j) else Z.testbit dst (Z.of_nat j).
Proof.
  intros t dst src j W R H. rewrite mbit_encode by auto. rewrite bit_merge_testbit by (auto; lia). auto.
Qed.

Lemma copy_to_spec : forall y a e to off, elem_wf (sy_root y) = true -> elem_at (sy_root y) (ar_pos a) = Some e ->
  List.length (ar_bb a) = storage_size e -> off + storage_size e <= List.length to ->
  exists to', copy_to y a to off = Ok to' /\ List.length to' = List.length to
    /\ forall i, mbit to' i = if (8 * off <=? i) && field_bit e (i - 8 * off) then mbit (ar_bb a) (i - 8 * off) else mbit to i.
Proof.
  intros y a e to off Hw Ha La Lt. unfold copy_to. rewrite Ha.
  assert ((forall t, e_kind e <> KdBit t) -> exists to', bb_restore_from to (ar_bb a) off = Ok to' /\ List.length to' = List.length to
    /\ forall i, mbit to' i = if (8 * off <=? i) && field_bit e (i - 8 * off) then mbit (ar_bb a) (i - 8 * off) else mbit to i) as G.
  { intros NK. assert (storage_size e = footprint e) as S.
    { unfold storage_size. destruct (e_kind e) eqn:K; auto. destruct (NK t); auto. }
    rewrite S in *. unfold bb_restore_from. rewrite (proj2 (bb_access_ok_spec to off (bb_size (ar_bb a)))) by (unfold bb_size; lia).
    eexists. split; [reflexivity|]. split; [apply overwrite_length; lia|]. intros i. rewrite mbit_overwrite by lia.
    replace (field_bit e (i - 8 * off)) with (i - 8 * off <? 8 * footprint e)
      by (unfold field_bit; destruct (e_kind e) eqn:K; auto; destruct (NK t); auto).
    rewrite La. destruct (Nat.leb_spec (8 * off) i); auto. cbn [andb].
    destruct (Nat.ltb_spec i (8 * (off + footprint e))), (Nat.ltb_spec (i - 8 * off) (8 * footprint e)); auto; lia. }
  destruct (e_kind e) eqn:K; try (apply G; intros; discriminate). clear G.
  destruct (bit_storage _ _ e t Hw Ha K) as [r [k [blk [_ [_ [_ [_ W]]]]]]].
  unfold storage_size in *. rewrite K in *.
  rewrite !read_int_fits by lia. cbn [obind].
  pose proof (le_decode_range (slice to off (bt_block t))) as R. rewrite slice_length in R by lia.
  replace (256 ^ Z.of_nat (bt_block t))%Z with (2 ^ (8 * Z.of_nat (bt_block t)))%Z in R by (rewrite Z.pow_mul_r by lia; auto).
  unfold bb_write_int. set (w := bit_merge t _ _). rewrite bb_write_fits by (rewrite le_encode_length; lia).
  eexists. split; [reflexivity|]. split; [apply overwrite_length; rewrite le_encode_length; lia|].
  intros i. rewrite mbit_overwrite by (rewrite le_encode_length; lia). rewrite le_encode_length.
  destruct (Nat.leb_spec (8 * off) i); auto. cbn [andb]. rewrite (field_bit_bit e t _ K W).
  destruct (Nat.ltb_spec i (8 * (off + bt_block t))).
  - unfold w. rewrite mbit_merge by (auto; lia). rewrite !mbit_testbit, !mbit_slice.
    replace (i - 8 * off <? 8 * bt_block t) with true by (symmetry; apply Nat.ltb_lt; lia).
    rewrite Nat.mul_0_r. cbn [Nat.add]. replace (8 * off + (i - 8 * off)) with i by lia. auto.
  - apply bit_wf_spec in W. destruct W as [_ [W1 [W2 [W3 _]]]].
    replace ((bt_pos t <=? Z.of_nat (i - 8 * off)) && (Z.of_nat (i - 8 * off) <? bt_pos t + bt_size t))%Z with false; auto.
    symmetry. apply andb_false_iff. right. apply Z.ltb_ge. lia.
Qed.

Lemma copy_from_spec : forall y a e from off, elem_wf (sy_root y) = true -> elem_at (sy_root y) (ar_pos a) = Some e ->
  List.length (ar_bb a) = storage_size e -> off + storage_size e <= List.length from ->
  exists b, copy_from y a from off = Ok (Area (ar_pos a) b (ar_valid a)) /\ List.length b = storage_size e
    /\ forall j, mbit b j = if field_bit e j then mbit from (8 * off + j) else mbit (ar_bb a) j.
Proof.
  intros y a e from off Hw Ha La Lf. unfold copy_from. rewrite Ha.
  assert ((forall t, e_kind e <> KdBit t) ->
    exists b, (do b <- bb_save_to from (ar_bb a) off; Ok (Area (ar_pos a) b (ar_valid a))) = Ok (Area (ar_pos a) b (ar_valid a))
    /\ List.length b = storage_size e
    /\ forall j, mbit b j = if field_bit e j then mbit from (8 * off + j) else mbit (ar_bb a) j) as G.
  { intros NK. assert (storage_size e = footprint e) as S.
    { unfold storage_size. destruct (e_kind e) eqn:K; auto. destruct (NK t); auto. }
    rewrite S in *. unfold bb_save_to. rewrite (proj2 (bb_access_ok_spec from off (bb_size (ar_bb a)))) by (unfold bb_size; lia).
    cbn [obind]. eexists. split; [reflexivity|]. unfold bb_size. rewrite La. split; [apply slice_length; lia|]. intros j.
    rewrite mbit_slice. replace (field_bit e j) with (j <? 8 * footprint e)
      by (unfold field_bit; destruct (e_kind e) eqn:K; auto; destruct (NK t); auto).
    destruct (Nat.ltb_spec j (8 * footprint e)); auto. symmetry. apply mbit_past. lia. }
  destruct (e_kind e) eqn:K; try (apply G; intros; discriminate). clear G.
  destruct (bit_storage _ _ e t Hw Ha K) as [r [k [blk [_ [_ [_ [_ W]]]]]]].
  unfold storage_size in *. rewrite K in *. rewrite !read_int_fits by lia. cbn [obind].
  pose proof (le_decode_range (slice (ar_bb a) 0 (bt_block t))) as R. rewrite slice_length in R by lia.
  replace (256 ^ Z.of_nat (bt_block t))%Z with (2 ^ (8 * Z.of_nat (bt_block t)))%Z in R by (rewrite Z.pow_mul_r by lia; auto).
  unfold bb_write_int. set (w := bit_merge t _ _). rewrite bb_write_fits by (rewrite le_encode_length; lia). cbn [obind].
  eexists. split; [reflexivity|]. split; [rewrite overwrite_length; rewrite ?le_encode_length; lia|].
  intros j. rewrite mbit_overwrite by (rewrite le_encode_length; lia). rewrite le_encode_length. rewrite (field_bit_bit e t _ K W).
  rewrite Nat.mul_0_r, Nat.sub_0_r. cbn [Nat.leb andb Nat.add].
  destruct (Nat.ltb_spec j (8 * bt_block t)).
  - unfold w. rewrite mbit_merge by (auto; lia). rewrite !mbit_testbit, !mbit_slice.
    replace (j <? 8 * bt_block t) with true by (symmetry; apply Nat.ltb_lt; lia). rewrite Nat.mul_0_r. auto.
  - apply bit_wf_spec in W. destruct W as [_ [W1 [W2 [W3 _]]]].
    replace ((bt_pos t <=? Z.of_nat j) && (Z.of_nat j <? bt_pos t + bt_size t))%Z with false; auto.
    symmetry. apply andb_false_iff. right. apply Z.ltb_ge. lia.
Qed.

(** ** The settings of an area, in the bits of the main memory *)

Definition abit (root : elem) (a : area) (i : nat) : bool := mbit (ar_bb a) (i - 8 * offset root (ar_pos a)).

Lemma owns_field : forall root p e i, elem_at root p = Some e ->
  (owns root p i <-> (8 * offset root p <=? i) && field_bit e (i - 8 * offset root p) = true).
Proof.
  intros root p e i Hp. rewrite andb_true_iff, Nat.leb_le. unfold owns. split.
  - intros [e' [H1 H2]]. rewrite Hp in H1. inversion H1; subst. auto.
  - intros H. exists e. auto.
Qed.

Lemma owns_dec : forall root p i, {owns root p i} + {~ owns root p i}.
Proof.
  intros root p i. destruct (elem_at root p) as [e|] eqn:E.
  - destruct ((8 * offset root p <=? i) && field_bit e (i - 8 * offset root p)) eqn:B.
    + left. apply (owns_field root p e i E). auto.
    + right. rewrite (owns_field root p e i E). rewrite B. discriminate.
  - right. intros [e [H _]]. congruence.
Qed.

(** Copy to the main memory. *)
Lemma copy_to_main : forall y a main, elem_wf (sy_root y) = true -> area_ok (sy_root y) a ->
  List.length main = footprint (sy_root y) ->
  exists main', copy_to y a main (offset (sy_root y) (ar_pos a)) = Ok main' /\ List.length main' = List.length main
    /\ (forall i, owns (sy_root y) (ar_pos a) i -> mbit main' i = abit (sy_root y) a i)
    /\ (forall i, ~ owns (sy_root y) (ar_pos a) i -> mbit main' i = mbit main i).
Proof.
  intros y a main Hw [e [Ha La]] Lm. pose proof (storage_inside _ _ e Hw Ha) as S.
  destruct (copy_to_spec y a e main (offset (sy_root y) (ar_pos a)) Hw Ha La ltac:(lia)) as [m [H1 [H2 H3]]].
  exists m. split; auto. split; auto. split; intros i Hi; rewrite H3.
  - apply (owns_field _ _ e _ Ha) in Hi. rewrite Hi. auto.
  - rewrite (owns_field _ _ e _ Ha) in Hi. apply not_true_iff_false in Hi. rewrite Hi. auto.
Qed.

(** Copy to the area of an element above. *)
Lemma copy_to_above : forall y a o, elem_wf (sy_root y) = true -> area_ok (sy_root y) a -> area_ok (sy_root y) o ->
  above (ar_pos o) (ar_pos a) ->
  exists o', copy_to_outer y a o = Ok o' /\ area_ok (sy_root y) o' /\ ar_pos o' = ar_pos o /\ ar_valid o' = ar_valid o
    /\ (forall i, owns (sy_root y) (ar_pos a) i -> abit (sy_root y) o' i = abit (sy_root y) a i)
    /\ (forall i, 8 * offset (sy_root y) (ar_pos o) <= i -> ~ owns (sy_root y) (ar_pos a) i -> abit (sy_root y) o' i = abit (sy_root y) o i).
Proof.
  intros y a o Hw [e [Ha La]] [f [Ho Lo]] A. destruct (storage_above _ _ _ f e Hw A Ho Ha) as [S1 S2].
  unfold copy_to_outer. set (off := offset (sy_root y) (ar_pos a) - offset (sy_root y) (ar_pos o)).
  destruct (copy_to_spec y a e (ar_bb o) off Hw Ha La ltac:(unfold off; lia)) as [m [H1 [H2 H3]]].
  rewrite H1. cbn [obind]. eexists. split; [reflexivity|]. split; [exists f; simpl; split; auto; lia|].
  split; auto. split; auto. unfold abit. cbn [ar_bb ar_pos]. split.
  - intros i Hi. rewrite H3. apply (owns_field _ _ e _ Ha) in Hi. apply andb_true_iff in Hi. destruct Hi as [G1 G2].
    apply Nat.leb_le in G1. replace (i - 8 * offset (sy_root y) (ar_pos o) - 8 * off)
      with (i - 8 * offset (sy_root y) (ar_pos a)) by (unfold off; lia).
    rewrite G2. rewrite (proj2 (Nat.leb_le _ _)) by (unfold off; lia). auto.
  - intros i Li Hi. rewrite H3. rewrite (owns_field _ _ e _ Ha) in Hi. apply not_true_iff_false in Hi.
    destruct (Nat.leb_spec (8 * off) (i - 8 * offset (sy_root y) (ar_pos o))); auto. cbn [andb].
    replace (i - 8 * offset (sy_root y) (ar_pos o) - 8 * off)
      with (i - 8 * offset (sy_root y) (ar_pos a)) by (unfold off; lia).
    rewrite (proj2 (Nat.leb_le _ _)) in Hi by (unfold off in *; lia). cbn [andb] in Hi. rewrite Hi. auto.
Qed.

(** Copy from the area of an element above. *)
Lemma copy_from_above : forall y a o, elem_wf (sy_root y) = true -> area_ok (sy_root y) a -> area_ok (sy_root y) o ->
  above (ar_pos o) (ar_pos a) ->
  exists a', copy_from_outer y o a = Ok a' /\ area_ok (sy_root y) a' /\ ar_pos a' = ar_pos a /\ ar_valid a' = true
    /\ (forall i, owns (sy_root y) (ar_pos a) i -> abit (sy_root y) a' i = abit (sy_root y) o i).
Proof.
  intros y a o Hw [e [Ha La]] [f [Ho Lo]] A. destruct (storage_above _ _ _ f e Hw A Ho Ha) as [S1 S2].
  unfold copy_from_outer. set (off := offset (sy_root y) (ar_pos a) - offset (sy_root y) (ar_pos o)).
  destruct (copy_from_spec y a e (ar_bb o) off Hw Ha La ltac:(unfold off; lia)) as [b [H1 [H2 H3]]].
  rewrite H1. unfold omap. cbn [obind set_valid ar_pos ar_bb]. eexists. split; [reflexivity|]. split; [exists e; simpl; auto|].
  split; auto. split; auto. unfold abit, set_valid. cbn [ar_bb ar_pos]. intros i Hi. rewrite H3.
  apply (owns_field _ _ e _ Ha) in Hi. apply andb_true_iff in Hi. destruct Hi as [G1 G2]. rewrite G2.
  apply Nat.leb_le in G1. f_equal. unfold off. lia.
Qed.

(** Copy from the main memory. *)
Lemma area_save_spec : forall y main a, elem_wf (sy_root y) = true -> area_ok (sy_root y) a ->
  List.length main = footprint (sy_root y) ->
  exists a', area_save y main a = Ok a' /\ area_ok (sy_root y) a' /\ ar_pos a' = ar_pos a /\ ar_valid a' = ar_valid a
    /\ (forall i, owns (sy_root y) (ar_pos a) i -> abit (sy_root y) a' i = mbit main i).
Proof.
  intros y main a Hw [e [Ha La]] Lm. pose proof (storage_inside _ _ e Hw Ha) as S. unfold area_save.
  destruct (copy_from_spec y a e main (offset (sy_root y) (ar_pos a)) Hw Ha La ltac:(lia)) as [b [H1 [H2 H3]]].
  rewrite H1. eexists. split; [reflexivity|]. split; [exists e; simpl; auto|]. split; auto. split; auto.
  unfold abit. cbn [ar_bb ar_pos]. intros i Hi. rewrite H3.
  apply (owns_field _ _ e _ Ha) in Hi. apply andb_true_iff in Hi. destruct Hi as [G1 G2]. rewrite G2.
  apply Nat.leb_le in G1. f_equal. lia.
Qed.

Lemma area_validate_spec : forall y main a, elem_wf (sy_root y) = true -> area_ok (sy_root y) a ->
  List.length main = footprint (sy_root y) ->
  exists a', area_validate y main a = Ok a' /\ area_ok (sy_root y) a' /\ ar_pos a' = ar_pos a /\ ar_valid a' = true
    /\ (ar_valid a = true -> a' = a)
    /\ (ar_valid a = false -> forall i, owns (sy_root y) (ar_pos a) i -> abit (sy_root y) a' i = mbit main i).
Proof.
  intros y main a Hw Ha Lm. unfold area_validate. destruct (ar_valid a) eqn:V.
  - exists a. repeat split; auto. discriminate.
  - destruct (area_save_spec y main a Hw Ha Lm) as [a' [H1 [H2 [H3 [H4 H5]]]]]. rewrite H1. unfold omap. cbn [obind].
    eexists. split; [reflexivity|]. split; [destruct H2 as [e H2]; exists e; auto|]. split; auto. split; auto. split; [discriminate|].
    intros _ i Hi. apply H5; auto.
Qed.

Lemma area_against_spec : forall y g a, area_ok (sy_root y) g -> area_ok (sy_root y) a -> ar_pos g = ar_pos a ->
  area_validate_against g a = Ok (Area (ar_pos a) (ar_bb g) true).
Proof.
  intros y g a [e [G1 G2]] [f [A1 A2]] E. rewrite E in G1. rewrite G1 in A1. inversion A1; subst f.
  unfold area_validate_against, bb_restore_from. rewrite (proj2 (bb_access_ok_spec _ _ _)) by (unfold bb_size; lia).
  cbn [obind]. rewrite overwrite_all by lia. auto.
Qed.

Lemma new_area_spec : forall y p e, elem_at (sy_root y) p = Some e ->
  exists a, new_area y p = Ok a /\ area_ok (sy_root y) a /\ ar_pos a = p /\ ar_valid a = false.
Proof.
  intros y p e H. unfold new_area. rewrite H. eexists. split; [reflexivity|]. split; auto.
  exists e. cbn [ar_pos ar_bb]. split; auto. apply bb_set_size_length.
Qed.

(** ** Restoring several areas *)

Lemma separate_cons : forall p l, separate (p :: l) -> separate l /\ forall q, In q l -> unrelated p q.
Proof.
  intros p l [N U]. inversion N; subst. split.
  - split; auto. intros a b Ha Hb. apply U; simpl; auto.
  - intros q Hq. apply U; simpl; auto. intros ->. auto.
Qed.

Lemma restore_areas_spec : forall y sync l main tr, structure_ok y -> List.length main = footprint (sy_root y) ->
  Forall (area_ok (sy_root y)) l -> separate (map ar_pos l) ->
  exists ok main' errs tr', restore_areas y sync l main tr = Ok (ok, main', errs, tr')
    /\ List.length main' = List.length main
    /\ (forall a i, In a l -> owns (sy_root y) (ar_pos a) i -> mbit main' i = abit (sy_root y) a i)
    /\ (forall i, (forall a, In a l -> ~ owns (sy_root y) (ar_pos a) i) -> mbit main' i = mbit main i)
    /\ (sync = false -> ok = true /\ errs = [] /\ tr' = tr).
Proof.
  intros y sync l. induction l as [|a l IH]; intros main tr [Hw Hf] Lm Ha Hs.
  - exists true, main, [], tr. repeat split; auto. intros ? ? [].
  - inversion Ha; subst. cbn [map] in Hs. destruct (separate_cons _ _ Hs) as [Hs' Hu].
    destruct (copy_to_main y a main Hw H1 Lm) as [m [E1 [E2 [E3 E4]]]].
    cbn [restore_areas]. unfold area_restore. rewrite E1. cbn [obind].
    assert (exists ok errs tr1, (if sync then let '(ok, errs, tr') := sync_set y (syncer_set y (ar_pos a)) m tr in Ok (ok, m, errs, tr')
            else Ok (true, m, [], tr)) = Ok (ok, m, errs, tr1) /\ (sync = false -> ok = true /\ errs = [] /\ tr1 = tr)) as [ok [errs [tr1 [E5 E6]]]].
    { destruct sync; [|eauto 10]. destruct (sync_set y (syncer_set y (ar_pos a)) m tr) as [[ok errs] tr1]. exists ok, errs, tr1. split; auto. discriminate. }
    rewrite E5. cbn [obind].
    destruct (IH m tr1 (conj Hw Hf) ltac:(congruence) H2 Hs') as [ok2 [m2 [errs2 [tr2 [F1 [F2 [F3 [F4 F5]]]]]]]].
    rewrite F1. cbn [obind]. do 4 eexists. split; [reflexivity|]. split; [congruence|]. split; [|split].
    + intros b i [<-|Hb] Hi; [|apply F3; auto]. rewrite F4; auto. intros c Hc C.
      apply (owns_apart (sy_root y) (ar_pos a) (ar_pos c) i Hw Hf); auto. apply Hu. apply in_map. auto.
    + intros i Hi. rewrite F4 by (intros; apply Hi; simpl; auto). apply E4. apply Hi. simpl. auto.
    + intros Hn. destruct (E6 Hn) as [-> [-> ->]]. destruct (F5 Hn) as [-> [-> ->]]. auto.
Qed.
