(** Texts of the values of parameters that are read back, at the level of the memory words. *)
From Coq Require Import List Arith ZArith QArith Qabs Bool Ascii String Lia Lqa Setoid.
From Verif Require Import Base BaseProofs TextModel TextSpec TextProofs RealModel RealSpec RealProofs ParamTypeModel ParamTypeSpec BlackboardModel
  BlackboardProofs IntProofs FixProofs FloatProofs PrintProofs BitModel ArrayModel ArraySpec ArrayProofs TreeModel TreeSpec MemSpec SyncModel DomainModel
  DomainSpec MgrModel MgrSpec ValueSpec XmlModel XmlSpec.
Import ListNotations.
Local Open Scope nat_scope.

Definition plain_word (s : str) : Prop := s <> [] /\ forall c, In c s -> ~ In c array_delimiters.

Lemma sign_text_plain : forall neg s c, sign_text neg s -> In c s -> ~ In c array_delimiters.
Proof.
  intros neg s c H I D. apply delim_codes in D. assert (c = "-"%char \/ c = "+"%char) as [-> | ->].
  { destruct neg; simpl in H; [subst s|destruct H; subst s]; destruct I as [<-|[]] || destruct I; auto. }
  - change (bval "-"%char) with 45%Z in D. lia.
  - change (bval "+"%char) with 43%Z in D. lia.
Qed.

Lemma digits_plain : forall s ds c, Forall2 dec_digit s ds -> In c s -> ~ In c array_delimiters.
Proof.
  intros s ds c H I D. apply delim_codes in D. destruct (forall2_in _ _ _ _ _ _ H I) as [d Hd]. unfold dec_digit in Hd. lia.
Qed.

Lemma real_text_plain : forall neg s q, real_text neg s q -> plain_word s.
Proof.
  intros neg s q [sg [s1 [ds1 [frac [s2 [ds2 [ex [e [-> [Sg [D1 [D2 [F [N [E _]]]]]]]]]]]]]]]. split.
  - intros H. apply app_eq_nil in H. destruct H as [_ H]. apply app_eq_nil in H. destruct H as [-> H].
    apply app_eq_nil in H. destruct H as [-> _]. inversion D1; subst. destruct F as [F|[_ ->]]; [discriminate|]. inversion D2; subst. auto.
  - intros c Hc. apply in_app_or in Hc. destruct Hc as [Hc|Hc]; [apply (sign_text_plain neg sg c Sg Hc)|].
    apply in_app_or in Hc. destruct Hc as [Hc|Hc]; [apply (digits_plain s1 ds1 c D1 Hc)|].
    apply in_app_or in Hc. destruct Hc as [Hc|Hc].
    + destruct F as [->|[-> _]]; [|destruct Hc]. destruct Hc as [<-|Hc]; [|apply (digits_plain s2 ds2 c D2 Hc)].
      intros D. apply delim_codes in D. change (bval "."%char) with 46%Z in D. lia.
    + destruct E as [[-> _]|[ec [sg2 [ng [r [ds [Ec [-> [S2 [Dr _]]]]]]]]]]; [destruct Hc|].
      destruct Hc as [<-|Hc].
      * intros D. apply delim_codes in D. destruct Ec as [-> | ->].
        -- change (bval "e"%char) with 101%Z in D. lia.
        -- change (bval "E"%char) with 69%Z in D. lia.
      * apply in_app_or in Hc. destruct Hc as [Hc|Hc]; [apply (sign_text_plain ng sg2 c S2 Hc)|apply (digits_plain r ds c Dr Hc)].
Qed.

(** From the memory to the word. *)
Lemma word_of_memory : forall t f f2 u, (0 <= u < 2 ^ (8 * Z.of_nat (pt_size t)))%Z ->
  (forall bb off, off + pt_size t <= List.length bb -> bb_read_int bb (pt_size t) off = Ok u ->
     exists s, param_get_str t f off bb = Ok s /\ param_set_str t f2 s off bb = Ok bb) ->
  exists s u', from_bb_str t f u = Ok s /\ to_bb_str t f2 s = Ok u' /\ word_of (pt_size t) u' = u.
Proof.
  intros t f f2 u Hu H. set (bb := le_encode (pt_size t) u).
  assert (List.length bb = pt_size t) as L by apply le_encode_length.
  assert (bb_read_int bb (pt_size t) 0 = Ok u) as R.
  { rewrite bb_read_int_fits by lia. f_equal. unfold slice, bb. cbn [skipn]. rewrite firstn_all2 by (rewrite le_encode_length; auto).
    rewrite le_decode_encode, pow256. apply Z.mod_small. auto. }
  destruct (H bb 0 ltac:(lia) R) as [s [G S]]. unfold param_get_str in G. rewrite R in G. cbn [obind] in G.
  unfold param_set_str in S. destruct (to_bb_str t f2 s) as [u'| | |] eqn:E; try discriminate. cbn [obind] in S.
  exists s, u'. split; auto. split; auto. destruct (write_read_word bb u' (pt_size t) 0 ltac:(lia)) as [b2 [W1 [_ [W2 _]]]].
  rewrite S in W1. inversion W1; subst b2. congruence.
Qed.

Lemma Qabs_sign : forall u, (Qabs (f32_value u) == f32_mag u)%Q.
Proof.
  intros u. pose proof (f32_mag_nonneg u) as N. unfold f32_value, signed_q. cbn [fst snd].
  destruct (f32_sign u); [rewrite Qabs_opp|]; apply Qabs_pos; auto.
Qed.

Lemma significant_comp : forall n a b, (a == b)%Q -> significant n a -> significant n b.
Proof. intros n a b E [k [e [H1 H2]]]. exists k, e. split; auto. rewrite <- E. auto. Qed.

(** The text of a floating point number of six significant digits. *)
Lemma float_text_word : forall a b h h2 u, (0 <= u < 2 ^ 32)%Z -> f32_finite u = true -> (a <= f32_value u /\ f32_value u <= b)%Q ->
  significant 6 (Qabs (f32_value u)) ->
  exists s, from_bb_str (PFloat a b) (Fmt false h) u = Ok s /\ to_bb_str (PFloat a b) (Fmt false h2) s = Ok u /\ plain_word s.
Proof.
  intros a b h h2 u Hu F V Sg. destruct (print_f32_text u Hu F) as [r [T [_ Nr]]].
  exists (print_f32 u). split; [reflexivity|]. split; [|eapply real_text_plain; eauto].
  assert (r == f32_mag u)%Q as Er.
  { pose proof (Nr (f32_mag u) (significant_comp _ _ _ (Qabs_sign u) Sg)) as X.
    assert (Qabs (f32_mag u - f32_mag u) == 0)%Q as Z0.
    { assert (f32_mag u - f32_mag u == 0)%Q as -> by ring. reflexivity. }
    rewrite Z0 in X. pose proof (Qabs_nonneg (r - f32_mag u)) as P.
    assert (r - f32_mag u <= 0)%Q by (eapply Qle_trans; [apply Qle_Qabs|auto]).
    assert (- (r - f32_mag u) <= 0)%Q by (rewrite <- Qabs_opp in X; eapply Qle_trans; [apply Qle_Qabs|auto]). lra. }
  destruct (f32_value_exact u Hu F) as [Ex [B1 B2]]. pose proof (f32_mag_nonneg u) as N.
  assert (round32 r == f32_mag u)%Q as Rr.
  { assert (round32 r == round32 (f32_mag u))%Q as -> by (apply round_fp_comp; auto).
    unfold f32_value, signed_q in Ex. cbn [fst snd] in Ex. destruct (f32_sign u) eqn:S; auto.
    destruct (f32_word_of u Hu) as [W1 [W2 W3]].
    assert (exists v, (0 <= v < 2 ^ 32)%Z /\ f32_finite v = true /\ f32_value v = f32_mag u) as [v [V1 [V2 V3]]].
    { exists (f32_word false (f32_exp u) (f32_mant u)). pose proof (proj1 (f32_finite_spec u) F) as Fn.
      destruct (f32_word_fields false (f32_exp u) (f32_mant u)) as [Y1 [Y2 [Y3 Y4]]]; [lia|lia|].
      split; auto. split; [apply f32_finite_spec; lia|]. unfold f32_value, signed_q. cbn [fst snd].
      rewrite Y1, !f32_mag_of, Y2, Y3. auto. }
    rewrite <- V3. apply f32_value_exact; auto. }
  assert (f32_mag u <= max32)%Q as Bm.
  { unfold f32_value, signed_q in B1, B2. cbn [fst snd] in B1, B2. destruct (f32_sign u); auto. lra. }
  destruct (convert_real_complete 24 (-149) max32 (f32_sign u) (print_f32 u) r T) as [m [Em Eq]].
  { fold round32. change (round_fp 24 (-149) r) with (round32 r). rewrite Rr. auto. }
  change (convert_real 24 (-149) max32 (print_f32 u)) with (convert_float (print_f32 u)) in Em.
  change (round_fp 24 (-149) r) with (round32 r) in Eq.
  cbn [to_bb_str]. unfold float_of_str. rewrite (real_text_not_hex _ _ _ T). cbn [f_raw negb andb]. rewrite Em.
  assert (m == f32_mag u)%Q as Emu by (rewrite Eq; auto).
  assert (float_in_range a b (signed_q (f32_sign u, m)) = true) as ->.
  { apply float_in_range_spec. unfold f32_value, signed_q in V. unfold signed_q. cbn [fst snd] in *.
    destruct (f32_sign u); rewrite Emu; auto. }
  f_equal. transitivity (f32_bits (f32_sign u, f32_mag u)); [apply f32_bits_comp; auto; rewrite Emu; auto|apply f32_bits_word; auto].
Qed.

(** The text of an enumeration value, read in another value space. *)
Lemma enum_text_word : forall b ps f raw h2 u, pt_wf (PEnum b ps) = true -> (0 <= u < 2 ^ (8 * Z.of_nat b))%Z -> word_restorable f raw (PEnum b ps) u ->
  exists s, from_bb_str (PEnum b ps) f u = Ok s
    /\ (exists u', to_bb_str (PEnum b ps) (Fmt raw h2) s = Ok u' /\ word_of b u' = u)
    /\ (cell_restorable f (PEnum b ps) -> plain_word s).
Proof.
  intros b ps f raw h2 u Wf Hu [_ [l [n [Hl [En [Hr H]]]]]]. apply pt_wf_enum in Wf. destruct Wf as [Hb Hps].
  pose proof (size_ok_pos b Hb) as Hb0. cbn [from_bb_str to_bb_str].
  assert (word_of b (to_ctype t_uint32 n) = u) as Wn by (rewrite word_of_u32 by auto; auto).
  unfold enum_to_str. destruct (f_raw f) eqn:Ef; cbv iota in H.
  - assert (u <= 2147483647)%Z as Hu31.
    { destruct (Nat.eqb_spec b 4) as [->|Hb4].
      - destruct H as [_ H0]. subst u. unfold width_hi in Hr. pows. rewrite word_of_small; pows; lia.
      - clear - Hb Hb4 Hu. unfold size_ok in Hb. destruct Hb as [->|[->| ->]]; pows; lia. }
    assert (enum_of_int b ps (Fmt raw h2) u = Ok (to_ctype t_uint32 n)) as Ki.
    { apply enum_of_int_Ok; eauto. cbn [f_raw]. destruct raw; [rewrite (word_of_small b u) by auto; subst u; symmetry; apply two_compl_word; auto|].
      assert (0 <= n)%Z as Hn by (revert H; destruct (b =? 4); [intros [_ H0]; exact H0|intros [H0|H0]; [discriminate|exact H0]]).
      subst u. symmetry. apply word_of_small. unfold width_hi in Hr. destruct (pow_b b Hb0) as [E P]. rewrite E. lia. }
    destruct (f_hex f) eqn:Eh.
    + destruct (Nat.eqb_spec b 4) as [->|Hb4]; [destruct H; discriminate|]. assert (b < 4) as Hlt by (unfold size_ok in Hb; lia).
      unfold make_encodable. destruct (Nat.ltb_spec b 4); [|lia]. cbn [omap obind].
      assert (Z.land u (Z.shiftl 1 (8 * Z.of_nat b) - 1) = u) as ->.
      { rewrite Z.shiftl_1_l. replace (2 ^ (8 * Z.of_nat b) - 1)%Z with (Z.ones (8 * Z.of_nat b)).
        - rewrite Z.land_ones by lia. apply Z.mod_small. auto.
        - rewrite Z.ones_equiv. lia. }
      exists (print_hex (2 * b) u). split; auto. split.
      * exists (to_ctype t_uint32 n). split; auto. unfold enum_of_str. rewrite convertTo_print_hex; auto; [lia|].
        change (ct_lo t_int32) with (-2147483648)%Z. change (ct_hi t_int32) with 2147483647%Z. lia.
      * intros _. eapply canon_hex_word. apply print_hex_canon; auto.
    + exists (print_dec u). split; auto. split.
      * exists (to_ctype t_uint32 n). split; auto. unfold enum_of_str. rewrite convertTo_print_dec; auto.
        change (ct_lo t_int32) with (-2147483648)%Z. change (ct_hi t_int32) with 2147483647%Z. lia.
      * intros _. eapply canon_dec_word. apply print_dec_canon.
  - destruct H as [N1 [N2 Hlit]]. rewrite sign_extend_ct by auto. rewrite word_of_small by auto.
    assert (two_compl b u = n) as -> by (subst u; apply two_compl_word; auto).
    rewrite (enum_literal_In ps l n N2 Hl). exists l. split; auto. split.
    + exists (to_ctype t_uint32 n). split; auto. unfold enum_of_str. destruct (Hlit l n Hl) as [Hff Hnt].
      destruct (convertTo t_int32 l) as [v|] eqn:Ec.
      * exfalso. apply convertTo_spec in Ec; auto. apply (Hnt v). tauto.
      * rewrite (enum_numerical_In ps l n) by auto. apply enum_of_int_Ok; eauto. cbn [f_raw]. destruct raw; auto.
        symmetry. apply two_compl_word; auto.
    + intros C. apply (C Ef l n Hl).
Qed.

(** Every type. *)
Lemma word_back : forall t f raw h2 u, pt_wf t = true -> (0 <= u < 2 ^ (8 * Z.of_nat (pt_size t)))%Z -> word_restorable f raw t u ->
  exists s u', from_bb_str t f u = Ok s /\ to_bb_str t (Fmt (if spaced (KdParam t) then f_raw f else raw) h2) s = Ok u'
    /\ word_of (pt_size t) u' = u /\ (cell_restorable f t -> plain_word s).
Proof.
  intros t f raw h2 u Wf Hu R. destruct t as [sg b lo hi| |b ps|b n m|a b].
  - destruct R as [[v [Hv ->]] _]. pose proof Wf as W. apply pt_wf_int in W. destruct W as [Hb [H1 [H2 H3]]].
    destruct (word_of_memory (PInt sg b lo hi) f f (word_of b v) Hu) as [s [u' [G [S W]]]].
    { intros bb off Hl Hrd. apply (int_write_back sg b lo hi f off bb v); auto. }
    exists s, u'. split; auto. split; auto. split; auto. intros _. cbn [from_bb_str] in G. inversion G; subst s.
    assert (width_lo sg b <= v <= width_hi sg b)%Z as Hv2 by lia.
    pose proof (int_to_str_canon sg b f v (word_of b v) Hb Hv2 eq_refl) as C.
    destruct (f_raw f && f_hex f); [eapply canon_hex_word; eauto|eapply canon_dec_word; eauto].
  - destruct R as [Hb _]. exists (bool_to_str f u), u. cbn [from_bb_str to_bb_str pt_size]. split; auto.
    unfold bool_to_str, bool_of_str, plain_word.
    assert (forall s, s = lit "0" \/ s = lit "1" \/ s = lit "0x0" \/ s = lit "0x1" -> s <> [] /\ forall c, In c s -> ~ In c array_delimiters) as P.
    { intros s [-> |[-> |[-> | ->]]]; split; try discriminate; intros c I D; apply delim_codes in D; simpl in I;
        repeat (destruct I as [<-|I]; [revert D; cbv; intuition discriminate|]); destruct I. }
    destruct Hb as [-> | ->]; destruct (f_raw f && f_hex f); cbn [Z.eqb]; (split; [reflexivity|split; [reflexivity|intros _; apply P; auto]]).
  - destruct (enum_text_word b ps f raw h2 u Wf Hu R) as [s [G [[u' [S W]] P]]]. exists s, u'. auto.
  - cbn [spaced]. cbn [pt_size] in Hu. pose proof Wf as W. apply pt_wf_fix in W. destruct W as [Hb Hs]. destruct (f_raw f) eqn:Ef.
    + destruct f as [fr fh]. cbn [f_raw] in Ef. subst fr.
      destruct (word_of_memory (PFix b n m) (Fmt true fh) (Fmt true fh) u Hu) as [s [u' [G [S Wd]]]].
      { intros bb off Hl Hrd. apply (fix_raw_write_back b n m fh off bb); auto. }
      exists s, u'. split; auto. split; [exact S|]. split; auto. intros _. cbn [from_bb_str] in G. unfold fix_to_str in G. cbn [f_raw f_hex] in G.
      destruct fh; inversion G; subst s; [eapply canon_hex_word; apply print_hex_canon; auto; apply size_ok_pos; auto|eapply canon_dec_word; apply print_dec_canon].
    + destruct R as [_ [R|[k [Hk Ek]]]]; [congruence|]. destruct f as [fr fh]. cbn [f_raw] in Ef. subst fr. fold (justified b n m k) in Ek.
      destruct (word_of_memory (PFix b n m) (Fmt false fh) (Fmt false fh) u Hu) as [s [u' [G [S Wd]]]].
      { intros bb off Hl Hrd. destruct (fix_text_write_back b n m fh off bb k Wf Hl Hk) as [s [S1 [_ S2]]]; [subst u; auto|]. eauto. }
      exists s, u'. split; auto. split; [exact S|]. split; auto. intros _. cbn [from_bb_str] in G. unfold fix_to_str in G. cbn [f_raw] in G.
      inversion G; subst s. eapply real_text_plain. apply print_fixed_real.
  - cbn [spaced]. cbn [pt_size] in Hu. change (8 * Z.of_nat 4)%Z with 32%Z in Hu. destruct R as [[F V] R].
    destruct f as [[] fh]; cbn [f_raw f_hex] in *.
    + subst fh. exists (print_dec u), u. split; auto. split.
      * cbn [to_bb_str]. unfold float_of_str. cbn [f_raw negb]. rewrite andb_false_r. rewrite convertTo_print_dec.
        -- apply float_in_range_spec in V. rewrite F, V. auto.
        -- change (ct_lo t_uint32) with 0%Z. change (ct_hi t_uint32) with 4294967295%Z. change (2 ^ 32)%Z with 4294967296%Z in Hu. lia.
      * split; [apply word_of_small; auto|]. intros _. eapply canon_dec_word. apply print_dec_canon.
    + destruct (float_text_word a b fh h2 u Hu F V R) as [s [G [S P]]]. exists s, u. split; auto. split; auto. split; [apply word_of_small; auto|]. auto.
Qed.
