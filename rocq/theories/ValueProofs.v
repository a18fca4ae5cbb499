(** Parameters only hold values of their type. *)
From Coq Require Import List Arith ZArith QArith Qabs Bool Ascii Lia.
From Verif Require Import Base BaseProofs TextModel TextProofs RealModel RealSpec RealProofs ParamTypeModel ParamTypeSpec BlackboardModel BlackboardProofs IntProofs BitModel BitSpec BitProofs
  FloatProofs ArrayModel ArraySpec ArrayProofs TreeModel TreeSpec TreeProofs CriterionModel RuleModel RuleProofs SyncModel DomainModel MemSpec MemProofs DomainSpec SyncProofs
  AreaProofs DomainProofs DomainInv DomainApply DomainsInv MgrModel MgrSpec MgrProofs MgrFlow MgrSkel ValueSpec.
Import ListNotations.
Local Open Scope nat_scope.

(** ** The conversions only give accepted words *)

Lemma range_word : forall b lo hi v, (lo <= v <= hi)%Z -> size_ok b -> word_accepted (PInt true b lo hi) (word_of b (to_ctype t_uint32 v)).
Proof. intros b lo hi v H S. exists v. split; auto. apply word_of_u32; auto. Qed.

Lemma user_word : forall sg b lo hi user v u, pt_wf (PInt sg b lo hi) = true -> (user = t_uint32 /\ (0 <= v < 2 ^ 32)%Z \/ user = t_int32 /\ (- 2 ^ 31 <= v < 2 ^ 31)%Z) ->
  int_of_user user lo hi v = Ok u -> word_accepted (PInt sg b lo hi) (word_of b u).
Proof.
  intros sg b lo hi user v u W Hu H. apply pt_wf_int in W. destruct W as [Hb [W1 [W2 W3]]]. unfold int_of_user in H.
  destruct ((v <? to_ctype user lo)%Z || (v >? to_ctype user hi)%Z) eqn:E; [discriminate|]. inversion H; subst u. rewrite word_of_u32 by auto.
  apply orb_false_iff in E. destruct E as [E1 E2]. apply Z.ltb_ge in E1. rewrite Z.gtb_ltb in E2. apply Z.ltb_ge in E2.
  assert (- 2 ^ 31 <= lo /\ hi < 2 ^ 32 /\ (sg = true -> hi < 2 ^ 31) /\ (sg = false -> 0 <= lo))%Z as B.
  { unfold width_lo, width_hi in *. destruct Hb as [->|[->| ->]]; destruct sg; change (2 ^ 31)%Z with 2147483648%Z; change (2 ^ 32)%Z with 4294967296%Z;
      simpl Z.of_nat in *; rewrite ?pow7_1, ?pow7_2, ?pow7_4, ?pow8_1, ?pow8_2, ?pow8_4 in *; simpl in *; repeat split; try discriminate; lia. }
  assert (exists v', (lo <= v' <= hi)%Z /\ (exists k, v = v' + k * 2 ^ 32)%Z) as [v' [R [k ->]]].
  { destruct Hu as [[-> Hv]|[-> Hv]]; unfold to_ctype, t_uint32, t_int32 in *; cbn [ct_signed ct_bytes andb] in *;
      change (2 ^ (8 * Z.of_nat 4))%Z with 4294967296%Z in *; change (4294967296 / 2)%Z with 2147483648%Z in *; change (2 ^ 31)%Z with 2147483648%Z in *;
      change (2 ^ 32)%Z with 4294967296%Z in *.
    - destruct (Z.lt_ge_cases lo 0).
      + destruct (Z.lt_ge_cases hi 0).
        * exists (v - 4294967296)%Z. split; [|exists 1%Z; lia]. rewrite <- (Z.mod_add lo 1) in E1 by lia. rewrite <- (Z.mod_add hi 1) in E2 by lia.
          rewrite Z.mod_small in E1, E2 by lia. lia.
        * rewrite <- (Z.mod_add lo 1) in E1 by lia. rewrite Z.mod_small in E1, E2 by lia. destruct B as [B0 [B1 [B2 B3]]]; destruct sg; [specialize (B2 eq_refl)|specialize (B3 eq_refl)]; lia.
      + exists v. split; [|exists 0%Z; lia]. rewrite Z.mod_small in E1, E2 by lia. lia.
    - destruct (Z.leb_spec 2147483648 (lo mod 4294967296)) as [L|L]; destruct (Z.leb_spec 2147483648 (hi mod 4294967296)) as [L2|L2].
      + destruct (Z.lt_ge_cases lo 0).
        * rewrite <- (Z.mod_add lo 1) in E1, L by lia. rewrite Z.mod_small in E1, L by lia.
          destruct (Z.lt_ge_cases hi 0).
          { rewrite <- (Z.mod_add hi 1) in E2, L2 by lia. rewrite Z.mod_small in E2, L2 by lia. exists v. split; [lia|exists 0%Z; lia]. }
          rewrite Z.mod_small in E2, L2 by lia. destruct B as [B0 [B1 [B2 B3]]]; destruct sg; [specialize (B2 eq_refl)|specialize (B3 eq_refl)]; lia.
        * rewrite Z.mod_small in E1, L, E2, L2 by lia. exists (v + 4294967296)%Z. split; [lia|exists (-1)%Z; lia].
      + destruct (Z.lt_ge_cases lo 0).
        * rewrite <- (Z.mod_add lo 1) in E1, L by lia. rewrite Z.mod_small in E1, L by lia.
          destruct (Z.lt_ge_cases hi 0).
          { rewrite <- (Z.mod_add hi 1) in E2, L2 by lia. rewrite Z.mod_small in E2, L2 by lia. lia. }
          rewrite Z.mod_small in E2, L2 by lia. exists v. split; [lia|exists 0%Z; lia].
        * rewrite Z.mod_small in E1, L, E2, L2 by lia. lia.
      + destruct (Z.lt_ge_cases lo 0).
        * rewrite <- (Z.mod_add lo 1) in E1, L by lia. rewrite Z.mod_small in E1, L by lia. lia.
        * rewrite Z.mod_small in E1, L, E2, L2 by lia. lia.
      + destruct (Z.lt_ge_cases lo 0).
        * rewrite <- (Z.mod_add lo 1) in L by lia. rewrite Z.mod_small in L by lia. lia.
        * rewrite Z.mod_small in E1, L, E2, L2 by lia. exists v. split; [lia|exists 0%Z; lia]. }
  exists v'. split; auto. unfold word_of. destruct Hb as [->|[->| ->]]; change (2 ^ (8 * Z.of_nat 1))%Z with 256%Z; change (2 ^ (8 * Z.of_nat 2))%Z with 65536%Z;
    change (2 ^ (8 * Z.of_nat 4))%Z with 4294967296%Z; change (2 ^ 32)%Z with 4294967296%Z.
  - replace (v' + k * 4294967296)%Z with (v' + (k * 16777216) * 256)%Z by lia. apply Z.mod_add. lia.
  - replace (v' + k * 4294967296)%Z with (v' + (k * 65536) * 65536)%Z by lia. apply Z.mod_add. lia.
  - apply Z.mod_add. lia.
Qed.

Lemma enum_word : forall b ps f v u, pt_wf (PEnum b ps) = true -> enum_of_int b ps f v = Ok u -> word_accepted (PEnum b ps) (word_of b u).
Proof.
  intros b ps f v u W H. apply pt_wf_enum in W. unfold enum_of_int in H. set (x := if f_raw f then sign_extend b v else v) in *.
  destruct (enum_in_space ps x) eqn:E; [|discriminate]. cbn [negb] in H. destruct (_ || _); [discriminate|]. inversion H; subst u.
  unfold enum_in_space in E. apply existsb_exists in E. destruct E as [[l n] [E1 E2]]. simpl in E2. apply Z.eqb_eq in E2. exists l, n. split; auto.
  rewrite word_of_u32 by tauto. congruence.
Qed.

Lemma bool_word : forall u, (u = 0 \/ u = 1)%Z -> word_accepted PBool (word_of 1 u).
Proof. intros u [->| ->]; simpl; [left|right]; reflexivity. Qed.

Lemma f32_small : forall a b u, (0 <= u < 2 ^ 32)%Z -> f32_finite u = true -> (a <= f32_value u /\ f32_value u <= b)%Q -> word_accepted (PFloat a b) (word_of 4 u).
Proof. intros a b u R F H. rewrite word_of_small by exact R. split; auto. Qed.

Lemma real_text_nonneg : forall neg s q, real_text neg s q -> (0 <= q)%Q.
Proof.
  intros neg s q [sg [s1 [ds1 [frac [s2 [ds2 [ex [e [_ [_ [H1 [H2 [_ [_ [_ Hv]]]]]]]]]]]]]]]. rewrite Hv.
  apply Qmult_le_0_compat; [|apply Qlt_le_weak; apply pow10_pos].
  change 0%Q with (inject_Z 0). apply (proj1 (inject_Z_le _ _)).
  apply (positional_nonneg 10 (s1 ++ s2)); [lia|]. apply Forall2_app; apply Forall2_good10; auto.
Qed.

Lemma convert_float_word : forall a b s sm, convert_float s = Some sm -> (a <= signed_q sm /\ signed_q sm <= b)%Q -> word_accepted (PFloat a b) (word_of 4 (f32_bits sm)).
Proof.
  intros a b s [neg r] H R. unfold convert_float, convert_real in H. destruct (existsb _ s); [discriminate|].
  destruct (match s with [] => _ | _ => _ end); [discriminate|]. destruct (parse_decimal s) as [[n q]|] eqn:E; [|discriminate]. cbv zeta in H.
  destruct (Qle_bool _ max32) eqn:E2; [|discriminate]. inversion H; subst n r. clear H. apply Qle_bool_iff in E2.
  apply parse_decimal_sound in E. destruct E as [ws [s' [_ [_ Hq]]]]. apply real_text_nonneg in Hq.
  destruct (f32_bits_number neg (round_fp 24 (-149) q)) as [U1 [U2 [U3 U4]]]; auto.
  { apply round_fp_format. lia. }
  { apply round32_sign. auto. }
  apply f32_small; auto. unfold signed_q in R. cbn [fst snd] in R. unfold f32_value, signed_q. cbn [fst snd]. rewrite U3. destruct neg; rewrite U4; auto.
Qed.

Lemma convertTo_range : forall s u, convertTo t_uint32 s = Some u -> (0 <= u < 2 ^ 32)%Z.
Proof.
  intros s u H. change (convertTo t_uint32 s) with (convert_int t_uint32 s) in H. unfold convert_int in H. destruct (existsb _ s); [discriminate|]. destruct (_ && _) in H; [discriminate|].
  set (b := match s with [] => _ | _ => _ end) in H. assert (b = 16 \/ b = 10)%Z as Hb.
  { unfold b. destruct s as [|c0 [|c1 r]]; auto. destruct (_ && _); auto. }
  clearbody b. destruct (stream_int b t_uint32 s) as [[v [|]]|] eqn:E; try discriminate. inversion H; subst v. unfold stream_int in E.
  destruct (match skip_ws s with [] => (false, []) | _ => _ end) as [neg s2]. set (s3 := if (b =? 16)%Z then _ else s2) in E. clearbody s3.
  destruct (take_digits b 0 false s3) as [[mag any] rest] eqn:T. apply take_digits_inv in T. destruct T as [s1 [ds [_ [HF [Hm _]]]]].
  destruct any; [|discriminate]. change (ct_signed t_uint32) with false in E. cbn iota in E. change (ct_hi t_uint32) with 4294967295%Z in E.
  change (2 ^ 32)%Z with 4294967296%Z. change (4294967295 + 1)%Z with 4294967296%Z in E.
  assert (0 <= mag)%Z. { rewrite Hm. apply (positional_nonneg b s1 ds); [lia|auto]. }
  destruct (Z.leb_spec mag 4294967295); [|discriminate]. inversion E as [E1]. destruct neg; [|lia]. apply Z.mod_pos_bound. lia.
Qed.

Lemma str_word : forall t f s u, pt_wf t = true -> to_bb_str t f s = Ok u -> word_accepted t (word_of (pt_size t) u).
Proof.
  intros t f s u W H. destruct t as [sg b lo hi| |b ps|b n m|a b]; cbn [to_bb_str pt_size] in *; auto.
  - pose proof W as W2. apply pt_wf_int in W2. unfold int_of_str in H.
    destruct (convertTo _ s) as [z|]; [|discriminate]. destruct ((_ <? _)%Z || _) eqn:E in H; [discriminate|]. inversion H; subst u.
    apply orb_false_iff in E. rewrite Z.ltb_ge, Z.gtb_ltb, Z.ltb_ge in E. eexists. split; [|apply word_of_u32; tauto]. lia.
  - apply bool_word. unfold bool_of_str in H. destruct (_ || _) in H; [inversion H; auto|]. destruct (_ || _) in H; inversion H; auto.
  - unfold enum_of_str in H. destruct (convertTo t_int32 s); [eapply enum_word; eauto|]. destruct (enum_numerical ps s); [eapply enum_word; eauto|discriminate].
  - exact I.
  - unfold float_of_str in H. destruct (_ && _) in H; [discriminate|]. destruct (f_raw f).
    + destruct (convertTo t_uint32 s) as [z|] eqn:E; [|discriminate]. destruct (f32_finite z && float_in_range a b (f32_value z)) eqn:E2; [|discriminate].
      inversion H; subst z. apply andb_true_iff in E2. destruct E2 as [E2 E3]. apply float_in_range_spec in E3. apply f32_small; auto.
      apply convertTo_range in E. exact E.
    + destruct (convert_float s) as [sm|] eqn:E; [|discriminate]. destruct (float_in_range a b (signed_q sm)) eqn:E3; [|discriminate]. inversion H; subst u.
      apply float_in_range_spec in E3. eapply convert_float_word; eauto.
Qed.

Lemma val_word : forall t f v u, pt_wf t = true -> uval_ok v -> to_bb_val t f v = Ok u -> word_accepted t (word_of (pt_size t) u).
Proof.
  intros t f v u W Hv H. destruct t as [sg b lo hi| |b ps|b n m|a b]; destruct v as [w|v|v|d]; cbn [to_bb_val pt_size uval_ok] in *; try discriminate; auto.
  - eapply user_word; eauto.
  - eapply user_word; eauto.
  - apply bool_word. destruct w; inversion H; auto.
  - apply bool_word. rewrite Z.gtb_ltb in H. destruct (Z.ltb_spec 1 v); [discriminate|]. inversion H; subst. lia.
  - eapply enum_word; eauto.
  - unfold float_of_dbl in H. destruct d as [q| |s|]; try discriminate.
    + destruct (Qle_bool (- max32) q && Qle_bool q max32) eqn:E; [|discriminate]. cbv zeta in H. destruct (float_in_range a b (round32 q)) eqn:E2; [|discriminate].
      inversion H; subst u. apply andb_true_iff in E. rewrite !Qle_bool_iff in E. apply float_in_range_spec in E2.
      destruct (f32_of_double q E) as [U1 [U2 U3]]. apply f32_small; auto. rewrite U3. auto.
    + destruct (float_in_range a b 0) eqn:E2; [|discriminate]. inversion H; subst u. apply float_in_range_spec in E2.
      apply f32_small; [lia|reflexivity|]. assert (f32_value (2 ^ 31) == 0)%Q as -> by (vm_compute; reflexivity). auto.
Qed.

(** ** The bits of a parameter determine whether its value is accepted *)

Lemma value_ok_same : forall k o1 b1 o2 b2, kind_wf k -> same_bytes o1 b1 o2 b2 (size_of_kind k) -> value_ok k o1 b1 -> value_ok k o2 b2.
Proof.
  intros k o1 b1 o2 b2 W S H. destruct k; auto; simpl in S, H |- *.
  - destruct H as [w [H1 H2]]. exists w. rewrite <- (read_int_same _ _ _ _ _ S). auto.
  - destruct H as [u [H1 H2]]. exists u. rewrite <- (read_int_same _ _ _ _ _ S). auto.
  - intros j Hj. destruct (H j Hj) as [u [H1 H2]]. exists u. split; auto. rewrite <- H1. symmetry. apply read_int_same. apply (same_bytes_sub _ _ _ _ _ _ _ S).
    unfold array_footprint. nia.
  - destruct H as [i [Hi H]]. destruct S as [S1 [S2 S3]]. exists i. split; auto. rewrite <- S3; auto. unfold string_size. lia.
Qed.

Lemma value_ok_local : forall root q e o1 b1 o2 b2, elem_wf root = true -> param_at root q e ->
  o1 + storage_size e <= List.length b1 -> o2 + storage_size e <= List.length b2 ->
  (forall bit, owns root q (8 * offset root q + bit) -> mbit b1 (8 * o1 + bit) = mbit b2 (8 * o2 + bit)) ->
  value_ok (e_kind e) o1 b1 -> value_ok (e_kind e) o2 b2.
Proof.
  intros root q e o1 b1 o2 b2 Hw Hq F1 F2 B. pose proof (param_kind_wf root q e Hw Hq) as KW. rewrite (storage_size_kind e (proj2 Hq)) in F1, F2.
  destruct (e_kind e) eqn:K; try (destruct Hq as [_ Hk]; rewrite K in Hk; discriminate).
  2,3,4: apply value_ok_same; auto; apply same_bytes_mbit; auto; intros i Hi; apply B; apply (owns_param root q e Hw Hq); rewrite K; auto.
  simpl in F1, F2 |- *. intros [w [H1 H2]]. rewrite read_int_fits in * by auto. inversion H1; subst w. eexists. split; [reflexivity|].
  rewrite <- bit_field_arith in * by auto. replace (bit_field t (le_decode (slice b2 o2 (bt_block t)))) with (bit_field t (le_decode (slice b1 o1 (bt_block t)))); auto.
  apply Z.bits_inj'. intros n Hn. rewrite !bit_field_testbit by auto. destruct (n <? bt_size t)%Z eqn:Hl; auto. cbn [andb].
  assert (bit_wf t = true) as W by exact KW. apply bit_wf_spec in W.
  replace (n + bt_pos t)%Z with (Z.of_nat (Z.to_nat (n + bt_pos t))) by lia. rewrite !mbit_testbit, !mbit_slice.
  destruct (Z.to_nat (n + bt_pos t) <? 8 * bt_block t) eqn:E; auto. apply B.
  apply (owns_param root q e Hw Hq). rewrite K. apply andb_true_iff. rewrite Nat.leb_le, Nat.ltb_lt. lia.
Qed.

(** ** Writes keep the values accepted *)

Lemma word_written : forall t u off bb bb', off + pt_size t <= List.length bb -> word_accepted t (word_of (pt_size t) u) ->
  bb_write_int bb u (pt_size t) off = Ok bb' -> word_at t off bb'.
Proof.
  intros t u off bb bb' L A H. destruct (write_read_word bb u (pt_size t) off L) as [b2 [E1 [E2 [E3 E4]]]]. rewrite E1 in H. inversion H; subst. exists (word_of (pt_size t) u). auto.
Qed.

Lemma word_kept : forall t o bb bb', o + pt_size t <= List.length bb -> List.length bb' = List.length bb ->
  (forall i, o <= i < o + pt_size t -> nth_error bb' i = nth_error bb i) -> word_at t o bb -> word_at t o bb'.
Proof.
  intros t o bb bb' L E H [u [H1 H2]]. exists u. split; auto. rewrite <- H1. apply read_int_same. split; [lia|]. split; [lia|]. intros i Hi. apply H. lia.
Qed.

Lemma cells_written : forall t len us start off bb bb', start + List.length us <= len -> off + len * pt_size t <= List.length bb ->
  Forall (fun u => word_accepted t (word_of (pt_size t) u)) us -> stores (pt_size t) (off + start * pt_size t) us bb bb' ->
  value_ok (KdArray t len) off bb -> value_ok (KdArray t len) off bb'.
Proof.
  intros t len us start off bb bb' Hs L A [S1 [S2 S3]] H j Hj.
  destruct (Nat.lt_ge_cases j start) as [C|C]; [|destruct (Nat.lt_ge_cases j (start + List.length us)) as [C2|C2]].
  - apply (word_kept t _ bb); auto; [nia|]. intros i Hi. apply S3. left. nia.
  - destruct (nth_error us (j - start)) as [u|] eqn:E; [|apply nth_error_None in E; lia].
    exists (word_of (pt_size t) u). split.
    + rewrite <- (S2 (j - start) u E). f_equal. nia.
    + rewrite Forall_forall in A. apply A. apply nth_error_In in E. auto.
  - apply (word_kept t _ bb); auto; [nia|]. intros i Hi. apply S3. right. nia.
Qed.

Lemma strs_words : forall t f vals us, pt_wf t = true -> Forall2 (fun v u => to_bb_str t f v = Ok u) vals us ->
  Forall (fun u => word_accepted t (word_of (pt_size t) u)) us.
Proof. intros t f vals us W H. induction H; constructor; auto. eapply str_word; eauto. Qed.

Lemma list_written : forall t len f vals start off bb ok bb', pt_wf t = true -> start + List.length vals <= len -> off + len * pt_size t <= List.length bb ->
  array_set_list t f vals (off + start * pt_size t) bb = Ok (ok, bb') -> value_ok (KdArray t len) off bb -> value_ok (KdArray t len) off bb'.
Proof.
  intros t len f vals start off bb ok bb' W Hs L H V. destruct (first_refused t f vals) as [[us F]|[good [us [v [rest [-> [F E]]]]]]].
  - pose proof (Forall2_len _ _ _ _ _ F) as Lu. destruct (array_set_list_Ok t f vals us F (off + start * pt_size t) bb ltac:(nia)) as [b2 [E1 E2]]. rewrite E1 in H. inversion H; subst.
    apply (cells_written t len us start off bb bb'); auto; [lia|]. eapply strs_words; eauto.
  - pose proof (Forall2_len _ _ _ _ _ F) as Lu. rewrite app_length in Hs. simpl in Hs.
    destruct (array_set_list_Err t f good us v rest F E (off + start * pt_size t) bb ltac:(nia)) as [b2 [E1 E2]]. rewrite E1 in H. inversion H; subst.
    apply (cells_written t len us start off bb bb'); auto; [lia|]. eapply strs_words; eauto.
Qed.

Lemma vals_written : forall t len f vals n off bb ok bb', pt_wf t = true -> Forall uval_ok vals -> n + List.length vals <= len -> off + len * pt_size t <= List.length bb ->
  array_set_vals t f vals (off + n * pt_size t) bb = Ok (ok, bb') -> value_ok (KdArray t len) off bb -> value_ok (KdArray t len) off bb'.
Proof.
  intros t len f vals. induction vals as [|v vals IH]; intros n off bb ok bb' W Hv Hs L H V; cbn [array_set_vals] in H.
  - inversion H; subst; auto.
  - inversion Hv; subst. simpl in Hs. destruct (to_bb_val t f v) as [u| | |] eqn:E; try discriminate.
    + destruct (write_read_word bb u (pt_size t) (off + n * pt_size t)) as [b1 [E1 [E2 [E3 E4]]]]; [nia|]. rewrite E1 in H. cbn [obind] in H.
      apply (IH (S n) off b1 ok bb'); auto; [lia|rewrite E2; auto| |].
      * rewrite <- H. f_equal. nia.
      * intros j Hj. destruct (Nat.eq_dec j n) as [->|N].
        { exists (word_of (pt_size t) u). split; auto. eapply val_word; eauto. }
        apply (word_kept t _ bb); auto; [nia|]. intros i Hi. apply E4. destruct (Nat.lt_ge_cases j n); [left|right]; nia.
    + inversion H; subst; auto.
Qed.

Lemma bit_written : forall t v off bb bb', bit_wf t = true -> off + bt_block t <= List.length bb -> (0 <= v)%Z ->
  (do data <- bb_read_int bb (bt_block t) off; do u <- bit_to_bb t v data; bb_write_int bb u (bt_block t) off) = Ok bb' ->
  value_ok (KdBit t) off bb'.
Proof.
  intros t v off bb bb' W L Hv H. destruct (bit_set_core t v off bb W L Hv) as [C1 C2]. destruct (Z.lt_ge_cases (bt_max t) v) as [D|D].
  - rewrite (C2 D) in H. discriminate.
  - destruct (C1 D) as [b2 [E1 [E2 _]]]. rewrite E1 in H. inversion H; subst.
    destruct (bit_effect_reads t v off bb bb' W ltac:(lia) E2) as [[w [R1 R2]] _]. exists w. split; auto. lia.
Qed.

Lemma leaf_set_value : forall k f rest s off bb ok bb', kind_wf k -> off + size_of_kind k <= List.length bb ->
  leaf_set k f rest s off 0 bb = Ok (ok, bb') -> value_ok k off bb -> value_ok k off bb'.
Proof.
  intros k f rest s off bb ok bb' W L H V. unfold leaf_set in H. rewrite Nat.sub_0_r in H. destruct k; auto; simpl in L, W.
  - destruct rest; [|inversion H; subst; auto]. unfold committed in H. destruct (bitparam_set_str t s off bb) as [x| | |] eqn:E; inversion H; subst; auto.
    rewrite bitparam_set_str_core in E. apply (bit_written t (strtoull0 s) off bb); auto. apply strtoull0_range.
  - destruct rest; [|inversion H; subst; auto]. unfold committed in H. destruct (param_set_str t f s off bb) as [x| | |] eqn:E; inversion H; subst; auto.
    unfold param_set_str in E. destruct (to_bb_str t f s) as [u| | |] eqn:E2; try discriminate. cbn [obind] in E. apply (word_written t u off bb); auto. eapply str_word; eauto.
  - unfold array_access_set in H. destruct (array_index len rest) as [i| | |] eqn:Ei; try discriminate; [|inversion H; subst; auto]. rewrite Nat.sub_0_r in H.
    unfold array_set_text in H. destruct (Nat.ltb_spec len (List.length (split s array_delimiters true) + match i with Some i => i | None => 0 end)) as [C|C]; [inversion H; subst; auto|].
    apply (list_written t len f (split s array_delimiters true) (match i with Some i => i | None => 0 end) off bb ok bb'); auto; [tauto|lia|]. unfold array_footprint in L. nia.
  - destruct rest; [|inversion H; subst; auto]. unfold committed in H. destruct (string_set max s off bb) as [x| | |] eqn:E; inversion H; subst; auto.
    eapply string_set_terminated; eauto.
Qed.

Lemma handle_write_value : forall k v off bb ok bb', kind_wf k -> off + size_of_kind k <= List.length bb -> hval_ok v ->
  hval_size v = 0 \/ hval_size v = array_length k ->
  handle_write k v off bb = Ok (ok, bb') -> value_ok k off bb -> value_ok k off bb'.
Proof.
  intros k v off bb ok bb' W L Hv Hs H V. destruct k; destruct v as [u|s|us|ss]; simpl in W, L, Hs, H, Hv; try (inversion H; subst; exact V); unfold committed in H.
  - destruct (bitparam_set_val t u off bb) as [x| | |] eqn:E; inversion H; subst; auto. unfold bitparam_set_val in E. destruct u as [w|n|n|d]; try discriminate.
    + destruct (bt_size t =? 1)%Z; [|discriminate]. apply (bit_written t (if w then 1 else 0)%Z off bb); auto. destruct w; lia.
    + apply (bit_written t n off bb); auto. simpl in Hv. lia.
  - destruct (bitparam_set_str t s off bb) as [x| | |] eqn:E; inversion H; subst; auto.
    rewrite bitparam_set_str_core in E. apply (bit_written t (strtoull0 s) off bb); auto. apply strtoull0_range.
  - destruct (param_set_val _ _ _ _ _) as [x| | |] eqn:E; inversion H; subst; auto. unfold param_set_val in E.
    destruct (to_bb_val _ _ _) as [z| | |] eqn:E2; try discriminate. cbn [obind] in E. apply (word_written t z off bb); auto. eapply val_word; eauto.
  - destruct (param_set_str _ _ _ _ _) as [x| | |] eqn:E; inversion H; subst; auto. unfold param_set_str in E.
    destruct (to_bb_str _ _ _) as [z| | |] eqn:E2; try discriminate. cbn [obind] in E. apply (word_written t z off bb); auto. eapply str_word; eauto.
  - apply (vals_written t len (Fmt false false) us 0 off bb ok bb'); auto; [tauto|lia|unfold array_footprint in L; nia|]. rewrite Nat.add_0_r. auto.
  - apply (list_written t len (Fmt false false) ss 0 off bb ok bb'); auto; [tauto|lia|unfold array_footprint in L; nia|]. rewrite Nat.add_0_r. auto.
  - destruct (string_set max s off bb) as [x| | |] eqn:E; inversion H; subst; auto. eapply string_set_terminated; eauto.
Qed.

(** ** Over histories *)

(** The value as a predicate on the bits at their place in the main memory. *)
Definition accepted_bits (root : elem) (q : list nat) (e : elem) (f : nat -> bool) : Prop :=
  forall o bb, o + storage_size e <= List.length bb ->
    (forall bit, owns root q (8 * offset root q + bit) -> mbit bb (8 * o + bit) = f (8 * offset root q + bit)) -> value_ok (e_kind e) o bb.

Lemma accepted_about : forall root q e, about root q (accepted_bits root q e).
Proof. intros root q e f g E H o bb L B. apply H; auto. intros bit O. rewrite (E _ O). auto. Qed.

Lemma accepted_iff : forall root q e base bb, elem_wf root = true -> param_at root q e -> base <= offset root q ->
  offset root q - base + storage_size e <= List.length bb ->
  (accepted_bits root q e (bits_at base bb) <-> value_ok (e_kind e) (offset root q - base) bb).
Proof.
  intros root q e base bb W Hq B L. split; intros H.
  - apply H; auto. intros bit O. unfold bits_at. f_equal. lia.
  - intros o b2 L2 E. apply (value_ok_local root q e (offset root q - base) bb o b2 W Hq L L2); auto. intros bit O. rewrite (E bit O). unfold bits_at. f_equal. lia.
Qed.

Lemma accepted_stable : forall y q e, elem_wf (sy_root y) = true -> param_at (sy_root y) q e -> stable y q e (accepted_bits (sy_root y) q e).
Proof.
  intros y q e W Hq base bb ok bb' B L H Wr. pose proof (param_kind_wf _ _ _ W Hq) as KW. pose proof (storage_size_kind e (proj2 Hq)) as Es.
  apply (proj1 (accepted_iff _ _ _ _ _ W Hq B L)) in H.
  assert (List.length bb' = List.length bb /\ value_ok (e_kind e) (offset (sy_root y) q - base) bb') as [L' V'].
  { destruct Wr as [[f [rest [s Hs]]]|[v [Hs [Hv Hz]]]].
    - rewrite leaf_set_base in Hs. destruct (leaf_set_frame (e_kind e) f rest s (offset (sy_root y) q - base) bb KW ltac:(lia)) as [ok' [b2 [S1 [S2 _]]]].
      rewrite S1 in Hs. injection Hs as -> ->. split; auto. apply (leaf_set_value _ f rest s _ bb ok bb' KW); auto. lia.
    - destruct (handle_write_frame (e_kind e) v (offset (sy_root y) q - base) bb KW ltac:(lia) ltac:(lia)) as [ok' [b2 [S1 [S2 _]]]].
      rewrite S1 in Hs. injection Hs as -> ->. split; auto. apply (handle_write_value _ v _ bb ok bb' KW); auto. lia. }
  apply (proj2 (accepted_iff _ _ _ _ bb' W Hq B ltac:(lia))). auto.
Qed.

Lemma valued_everywhere : forall y q e m, elem_wf (sy_root y) = true -> mgr_ok y m -> param_at (sy_root y) q e ->
  (valued y q e m <-> everywhere y q (accepted_bits (sy_root y) q e) m).
Proof.
  intros y q e m W [K [V L]] Hq.
  assert (accepted_bits (sy_root y) q e (mbit (mg_main m)) <-> value_ok (e_kind e) (offset (sy_root y) q) (mg_main m)) as M.
  { rewrite <- (bits_main (sy_root y) q _ _ (accepted_about _ q e)). rewrite (accepted_iff _ q e 0 (mg_main m) W Hq); [rewrite Nat.sub_0_r; tauto|lia|].
    rewrite Nat.sub_0_r, L. apply storage_inside; auto. apply Hq. }
  unfold valued, everywhere. rewrite M.
  assert (forall d c a, In d (ds_list (mg_doms m)) -> In c (dm_configs d) -> In a (cf_areas c) -> above (ar_pos a) q ->
    (accepted_bits (sy_root y) q e (area_bits (sy_root y) a) <-> value_ok (e_kind e) (offset (sy_root y) q - offset (sy_root y) (ar_pos a)) (ar_bb a))) as A.
  { intros d c a Hd Hc Ha Ab. assert (area_ok (sy_root y) a) as Ka.
    { destruct (dk_configs _ _ (ds_domain _ _ K d Hd) c Hc) as [_ F]. rewrite Forall_forall in F. auto. }
    destruct (area_fits _ _ _ _ W Ka Hq Ab) as [F1 F2]. apply (accepted_iff _ q e _ _ W Hq F1 F2). }
  split; intros [H1 H2]; split; auto; intros d c a Hd Hc Ha Ab; [apply (proj2 (A d c a Hd Hc Ha Ab))|apply (proj1 (A d c a Hd Hc Ha Ab))]; eauto.
Qed.

Theorem run_valued : forall y cs m bs m' q e, system_ok y -> mgr_ok y m -> param_at (sy_root y) q e -> Forall (typed q) cs ->
  run y m cs = Ok (bs, m') -> valued y q e m -> valued y q e m'.
Proof.
  intros y cs m bs m' q e Sy K Hq T R V. pose proof (proj1 (proj1 Sy)) as W.
  assert (mgr_ok y m') as K'. { destruct (run_ok y cs m Sy K) as [[bs2 [m2 [E [_ K2]]]]|E]; rewrite R in E; [inversion E; subst; auto|discriminate]. }
  apply (proj2 (valued_everywhere y q e m' W K' Hq)). apply (proj1 (valued_everywhere y q e m W K Hq)) in V.
  apply (run_everywhere y cs m bs m' q e _ Sy K Hq (accepted_about _ q e)); auto.
  - rewrite Forall_forall in *. intros c Hc. apply T; auto.
  - rewrite Forall_forall in T. intros c Hc. split; [apply T; auto|]. intros _. apply accepted_stable; auto.
Qed.

Lemma read_zero : forall n b off, off + b <= n -> bb_read_int (repeat zero n) b off = Ok 0%Z.
Proof.
  intros n b off H. rewrite read_int_fits by (rewrite repeat_length; auto). f_equal. unfold slice.
  assert (firstn b (skipn off (repeat zero n)) = repeat zero b) as ->.
  { replace n with (off + (b + (n - off - b))) by lia. rewrite repeat_app, skipn_app, skipn_all2, repeat_length, Nat.sub_diag by (rewrite repeat_length; lia). simpl.
    rewrite repeat_app, firstn_app, firstn_all2, repeat_length, Nat.sub_diag by (rewrite repeat_length; lia). simpl. apply app_nil_r. }
  induction b as [|b IH]; auto. change (le_decode (repeat zero (S b))) with (bval zero + 256 * le_decode (repeat zero b))%Z. rewrite IH by lia. reflexivity.
Qed.

Lemma zero_value : forall k off n, kind_wf k -> off + size_of_kind k <= n -> zero_ok k -> value_ok k off (repeat zero n).
Proof.
  intros k off n W L Z. destruct k; simpl in *; auto.
  - exists 0%Z. split; [apply read_zero; auto|]. apply bit_wf_spec in W. rewrite Zdiv_0_l, Zmod_0_l. lia.
  - exists 0%Z. split; auto. apply read_zero; auto.
  - intros j Hj. exists 0%Z. split; auto. apply read_zero. unfold array_footprint in L. nia.
  - exists 0. split; [lia|]. unfold string_size in L. assert (forall n i, i < n -> nth_error (repeat zero n) i = Some zero) as R by (clear; induction n as [|n IH]; intros [|i] Hi; simpl; auto; try lia; apply IH; lia).
    apply R. lia.
Qed.

(** Zeroed memory without domains. *)
Lemma zero_valued : forall y m q e, elem_wf (sy_root y) = true -> param_at (sy_root y) q e -> zero_ok (e_kind e) ->
  ds_list (mg_doms m) = [] -> mg_main m = initial_blackboard (sy_root y) -> valued y q e m.
Proof.
  intros y m q e W Hq Z Ed Em. split; [|rewrite Ed; intros d c a []]. rewrite Em. unfold initial_blackboard, bb_set_size. rewrite firstn_nil. simpl. rewrite Nat.sub_0_r. apply zero_value; auto.
  - apply (param_kind_wf _ _ _ W Hq).
  - rewrite <- storage_size_kind by apply Hq. apply storage_inside; auto. apply Hq.
Qed.

(** What holds of the memory and of the valid settings that the framework is loaded with holds when it is started. *)
Lemma load_everywhere : forall y allowed cs s bb m q e (S : (nat -> bool) -> Prop), system_ok y -> loadable y cs s bb -> load y allowed cs s bb = Ok m ->
  param_at (sy_root y) q e -> about (sy_root y) q S -> S (mbit bb) ->
  (forall d c a, In d (ds_list s) -> In c (dm_configs d) -> In a (cf_areas c) -> above (ar_pos a) q -> ar_valid a = true -> S (area_bits (sy_root y) a)) ->
  everywhere y q S m.
Proof.
  intros y al cs s bb m q e S Hy Hl H Hq Ab Sm Sa. destruct (load_ok y al cs s bb Hy Hl) as [m1 [s1 [E1 [E2 [E3 [M0 _]]]]]].
  rewrite H in E1. inversion E1; subst m1. apply (do_apply_everywhere y true [] _ m q e S (proj1 Hy) M0 Hq Ab E3). split; [exact Sm|].
  cbn [mg_doms]. intros d' c' a' Hd' Hc' Ha' Hab. destruct Hl as [_ [K [_ L]]].
  destruct (ds_validate_ok y bb s (proj1 Hy) K L) as [s2 [V1 [_ [_ [_ F]]]]]. rewrite E2 in V1. inversion V1; subst s2.
  destruct (Forall2_in_r _ _ _ _ _ d' F Hd') as [d [Hd [_ [_ [_ [_ [_ G]]]]]]].
  destruct (Forall2_in_r _ _ _ _ _ c' G Hc') as [c [Hc [_ [_ [_ I]]]]].
  destruct (Forall2_in_r _ _ _ _ _ a' I Ha') as [a [Ha [P1 [P2 [P3 P4]]]]]. destruct (ar_valid a) eqn:V.
  - rewrite (P3 eq_refl) in *. apply (Sa d c a); auto.
  - apply (Ab (mbit bb)); auto. intros i Hi. symmetry. apply (P4 eq_refl). rewrite <- P1. destruct P2 as [x [X _]]. apply (owns_above (sy_root y) (ar_pos a') q i (proj1 (proj1 Hy))); eauto.
Qed.

Lemma load_valued : forall y allowed cs s bb m q e, system_ok y -> loadable y cs s bb -> load y allowed cs s bb = Ok m -> param_at (sy_root y) q e ->
  value_ok (e_kind e) (offset (sy_root y) q) bb ->
  (forall d c a, In d (ds_list s) -> In c (dm_configs d) -> In a (cf_areas c) -> above (ar_pos a) q -> ar_valid a = true ->
     value_ok (e_kind e) (offset (sy_root y) q - offset (sy_root y) (ar_pos a)) (ar_bb a)) ->
  valued y q e m.
Proof.
  intros y al cs s bb m q e Sy Hl H Hq Vm Va. pose proof (proj1 (proj1 Sy)) as W. destruct (load_ok y al cs s bb Sy Hl) as [m1 [_ [E1 [_ [_ [_ [_ [M1 _]]]]]]]].
  rewrite H in E1. inversion E1; subst m1. apply (valued_everywhere y q e m W M1 Hq). destruct Hl as [Ck [K [R L]]].
  apply (load_everywhere y al cs s bb m q e); auto; [split; [|split; [|split]]; auto|apply accepted_about| |].
  - apply (bits_main (sy_root y) q _ bb (accepted_about _ _ _)). apply (accepted_iff (sy_root y) q e 0 bb W Hq); [lia| |rewrite Nat.sub_0_r; auto].
    rewrite Nat.sub_0_r, L. apply storage_inside; auto. apply Hq.
  - intros d c a Hd Hc Ha Hab V. assert (area_ok (sy_root y) a) as Ka.
    { destruct (dk_configs _ _ (ds_domain _ _ K d Hd) c Hc) as [_ Fa]. rewrite Forall_forall in Fa. apply Fa. auto. }
    destruct (area_fits (sy_root y) a q e W Ka Hq Hab) as [A1 A2]. apply (accepted_iff (sy_root y) q e (offset (sy_root y) (ar_pos a)) (ar_bb a) W Hq A1 A2). apply (Va d c a); auto.
Qed.

Lemma all_typed_typed : forall q cs, Forall all_typed cs -> Forall (typed q) cs.
Proof.
  intros q cs H. rewrite Forall_forall in *. intros c Hc. destruct (H c Hc) as [H1 H2]. split; auto. destruct c; simpl; auto. destruct (H2 p bytes); auto.
Qed.

Lemma typed_reachable : forall y m, reachable_typed y m -> reachable y m.
Proof. intros y m [m0 [cmds [bs [H1 [_ [_ H2]]]]]]. exists m0, cmds, bs. auto. Qed.

Lemma typed_valued : forall y m q e max, system_ok y -> reachable_typed y m -> param_at (sy_root y) q e -> e_kind e = KdString max -> valued y q e m.
Proof.
  intros y m q e max Sy [m0 [cmds [bs [H1 [H2 [H3 H4]]]]]] Hq Z. destruct (started_ok y m0 Sy H1) as [M0 _].
  apply (run_valued y cmds _ bs m q e Sy M0 Hq (all_typed_typed q cmds H3) H4). apply (H2 q e max); auto.
Qed.
