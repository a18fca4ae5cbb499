(** Proofs about fixed point parameters. *)
From Coq Require Import List Arith ZArith QArith Qround Qabs Qpower Bool Ascii String Lia Lqa Setoid.
From Verif Require Import Base BaseProofs TextModel TextSpec TextProofs RealModel RealSpec RealProofs ParamTypeModel
  ParamTypeSpec BlackboardModel BlackboardProofs IntProofs.
Import ListNotations.
Open Scope Z_scope.

Lemma pt_wf_fix : forall b n m, pt_wf (PFix b n m) = true ->
  size_ok b /\ Z.of_nat n + Z.of_nat m + 1 <= 8 * Z.of_nat b.
Proof. intros b n m. unfold pt_wf, fix_util_bits. rewrite andb_true_iff, size_ok_spec, Z.leb_le. auto. Qed.

(** Left justification of the [n + m + 1] bits. *)
Definition justified (b n m : nat) (k : Z) : Z := k * 2 ^ (8 * Z.of_nat b - (Z.of_nat n + Z.of_nat m + 1)).

Lemma justified_range : forall b n m k, Z.of_nat n + Z.of_nat m + 1 <= 8 * Z.of_nat b -> q_range n m k ->
  width_lo true b <= justified b n m k <= width_hi true b.
Proof.
  intros b n m k Hb [H1 H2]. unfold justified, width_lo, width_hi.
  set (sh := 8 * Z.of_nat b - (Z.of_nat n + Z.of_nat m + 1)).
  assert (2 ^ (8 * Z.of_nat b - 1) = 2 ^ (Z.of_nat n + Z.of_nat m) * 2 ^ sh) as E.
  { rewrite <- Z.pow_add_r by (unfold sh; lia). f_equal. unfold sh. lia. }
  assert (0 < 2 ^ sh) by (apply Z.pow_pos_nonneg; unfold sh; lia). nia.
Qed.

Lemma range_scaled : forall n m q,
  fix_in_range n m (DFin q) = true <->
  (q_value m (- 2 ^ (Z.of_nat n + Z.of_nat m)) <= q /\ q <= q_value m (2 ^ (Z.of_nat n + Z.of_nat m) - 1))%Q.
Proof.
  intros n m q. unfold fix_in_range. cbn [dbl_le_q q_le_dbl]. rewrite andb_true_iff, !Qle_bool_iff.
  unfold fix_max, fix_min, q_value.
  assert (- (inject_Z (2 ^ (Z.of_nat n + Z.of_nat m)) / inject_Z (2 ^ Z.of_nat m))
          == inject_Z (- 2 ^ (Z.of_nat n + Z.of_nat m)) / inject_Z (2 ^ Z.of_nat m))%Q as E.
  { rewrite inject_Z_opp. unfold Qdiv. ring. }
  rewrite E. tauto.
Qed.

Lemma inject_pow_pos : forall m, (0 < inject_Z (2 ^ Z.of_nat m))%Q.
Proof.
  intros m. change 0%Q with (inject_Z 0). apply (proj1 (inject_Z_lt _ _)). apply Z.pow_pos_nonneg; lia.
Qed.

Lemma q_value_mul : forall m k, (q_value m k * inject_Z (2 ^ Z.of_nat m) == inject_Z k)%Q.
Proof. intros. unfold q_value. pose proof (inject_pow_pos m). field. lra. Qed.

Lemma q_value_le : forall m a b, a <= b -> (q_value m a <= q_value m b)%Q.
Proof.
  intros m a b H. apply (Qmult_le_r _ _ _ (inject_pow_pos m)). rewrite !q_value_mul. apply (proj1 (inject_Z_le _ _)). auto.
Qed.

Lemma scaled_bounds : forall n m q,
  (q_value m (- 2 ^ (Z.of_nat n + Z.of_nat m)) <= q /\ q <= q_value m (2 ^ (Z.of_nat n + Z.of_nat m) - 1))%Q ->
  q_range n m (round_away (q * inject_Z (2 ^ Z.of_nat m))).
Proof.
  intros n m q [H1 H2]. pose proof (inject_pow_pos m) as P.
  apply (Qmult_le_r _ _ _ P) in H1. apply (Qmult_le_r _ _ _ P) in H2. rewrite q_value_mul in H1, H2.
  pose proof (round_away_bounds _ _ _ (conj H1 H2)). unfold q_range. lia.
Qed.

(** The stored number is the nearest one. *)
Lemma quantum_error : forall m q,
  (Qabs (q_value m (round_away (q * inject_Z (2 ^ Z.of_nat m))) - q) <= (1 # 2) * q_value m 1)%Q.
Proof.
  intros m q. pose proof (inject_pow_pos m) as P. apply (Qmult_le_r _ _ _ P).
  rewrite <- (Qabs_pos (inject_Z (2 ^ Z.of_nat m))) at 2 by lra. rewrite <- Qabs_Qmult.
  set (k := round_away (q * inject_Z (2 ^ Z.of_nat m))).
  assert ((q_value m k - q) * inject_Z (2 ^ Z.of_nat m) == inject_Z k - q * inject_Z (2 ^ Z.of_nat m))%Q as ->.
  { rewrite <- (q_value_mul m k). ring. }
  rewrite <- Qmult_assoc, q_value_mul. change (inject_Z 1) with 1%Q. rewrite Qmult_1_r. apply round_away_error.
Qed.

Lemma fix_encode_eq : forall b n m q, size_ok b -> Z.of_nat n + Z.of_nat m + 1 <= 8 * Z.of_nat b ->
  q_range n m (round_away (q * inject_Z (2 ^ Z.of_nat m))) ->
  fix_encode b n m q = justified b n m (round_away (q * inject_Z (2 ^ Z.of_nat m))).
Proof.
  intros b n m q Hb Hs Hk. unfold fix_encode. set (k := round_away _) in *.
  pose proof (justified_range b n m k Hs Hk) as J.
  assert (0 < 2 ^ (8 * Z.of_nat b - (Z.of_nat n + Z.of_nat m + 1))) as P by (apply Z.pow_pos_nonneg; lia).
  pose proof (size_ok_pos b Hb) as Hb0.
  assert (forall z, width_lo true b <= z <= width_hi true b -> ct_lo t_int32 <= z <= ct_hi t_int32) as W.
  { intros z Hz. apply (width_in_i32 b z Hb Hz). }
  assert (width_lo true b <= k <= width_hi true b) as Hk2.
  { unfold justified in J. assert (width_lo true b <= 0 <= width_hi true b).
    { unfold width_lo, width_hi. assert (0 < 2 ^ (8 * Z.of_nat b - 1)) by (apply Z.pow_pos_nonneg; lia). lia. }
    nia. }
  rewrite (to_ctype_id t_int32 k) by (cbn; auto; lia). unfold fix_util_bits.
  rewrite Z.shiftl_mul_pow2 by lia. fold (justified b n m k). apply to_ctype_id; auto. cbn; lia.
Qed.

(** Reading the stored word. *)
Lemma fix_read : forall b n m k, size_ok b -> Z.of_nat n + Z.of_nat m + 1 <= 8 * Z.of_nat b -> q_range n m k ->
  fix_unjustify b n m (sign_extend b (to_ctype t_int32 (word_of b (justified b n m k)))) = k.
Proof.
  intros b n m k Hb Hs Hk. pose proof (size_ok_pos b Hb). rewrite sign_extend_ct by auto.
  rewrite (word_of_small b (word_of b _)) by apply word_of_range.
  rewrite two_compl_word by (auto; apply justified_range; auto).
  unfold fix_unjustify, justified, fix_util_bits. rewrite Z.shiftr_div_pow2 by lia. apply Z.div_mul.
  assert (0 < 2 ^ (8 * Z.of_nat b - (Z.of_nat n + Z.of_nat m + 1))) by (apply Z.pow_pos_nonneg; lia). lia.
Qed.

(** ** Handles *)

Lemma fix_set_get : forall b n m f q off bb, pt_wf (PFix b n m) = true -> (off + b <= List.length bb)%nat ->
  (q_value m (- 2 ^ (Z.of_nat n + Z.of_nat m)) <= q /\ q <= q_value m (2 ^ (Z.of_nat n + Z.of_nat m) - 1))%Q ->
  exists bb' k r, param_set_val (PFix b n m) f (UDbl (DFin q)) off bb = Ok bb'
    /\ q_range n m k /\ (Qabs (q_value m k - q) <= (1 # 2) * q_value m 1)%Q
    /\ param_get_val (PFix b n m) KDbl off bb' = Ok (UDbl (DFin r)) /\ (r == q_value m k)%Q
    /\ bb_read_int bb' b off = Ok (word_of b (justified b n m k))
    /\ List.length bb' = List.length bb
    /\ (forall i, (i < off \/ off + b <= i)%nat -> nth_error bb' i = nth_error bb i).
Proof.
  intros b n m f q off bb Hwf Hoff Hq. apply pt_wf_fix in Hwf. destruct Hwf as [Hb Hs].
  pose proof (scaled_bounds n m q Hq) as Hk. pose proof (quantum_error m q) as He.
  pose proof (fix_encode_eq b n m q Hb Hs Hk) as Ee. set (k := round_away _) in *.
  destruct (write_read_word bb (to_ctype t_uint32 (justified b n m k)) b off Hoff) as [bb' [W1 [W2 [W3 W4]]]].
  rewrite word_of_u32 in W3 by auto.
  exists bb', k, (inject_Z k / inject_Z (2 ^ Z.of_nat m))%Q.
  split; [|split; [auto|split; [auto|split; [|split; [reflexivity|auto]]]]].
  - unfold param_set_val. cbn [to_bb_val pt_size]. unfold fix_of_dbl.
    assert (fix_in_range n m (DFin q) = true) as -> by (apply range_scaled; auto). cbn [obind]. rewrite Ee. auto.
  - unfold param_get_val. cbn [pt_size]. rewrite W3. cbn [obind from_bb_val]. unfold fix_to_dbl.
    rewrite fix_read by auto. auto.
Qed.

Lemma fix_set_refused : forall b n m f d off bb,
  (forall q, d = DFin q ->
    ~ (q_value m (- 2 ^ (Z.of_nat n + Z.of_nat m)) <= q /\ q <= q_value m (2 ^ (Z.of_nat n + Z.of_nat m) - 1))%Q) ->
  d <> DNegZero -> param_set_val (PFix b n m) f (UDbl d) off bb = Err.
Proof.
  intros b n m f d off bb H Hz. unfold param_set_val. cbn [to_bb_val]. unfold fix_of_dbl.
  assert (fix_in_range n m d = false) as ->; auto.
  destruct d as [q| |neg|]; auto; try congruence.
  - destruct (fix_in_range n m (DFin q)) eqn:E; auto. apply range_scaled in E. exfalso. eapply H; eauto.
  - unfold fix_in_range. destruct neg; auto. 
Qed.

Lemma fix_write_back : forall b n m f off bb k, pt_wf (PFix b n m) = true -> (off + b <= List.length bb)%nat ->
  q_range n m k -> bb_read_int bb b off = Ok (word_of b (justified b n m k)) ->
  exists r, param_get_val (PFix b n m) KDbl off bb = Ok (UDbl (DFin r)) /\ (r == q_value m k)%Q
    /\ param_set_val (PFix b n m) f (UDbl (DFin r)) off bb = Ok bb.
Proof.
  intros b n m f off bb k Hwf Hoff Hk Hr. pose proof Hwf as Hw. apply pt_wf_fix in Hw. destruct Hw as [Hb Hs].
  exists (inject_Z k / inject_Z (2 ^ Z.of_nat m))%Q. split; [|split; [reflexivity|]].
  - unfold param_get_val. cbn [pt_size]. rewrite Hr. cbn [obind from_bb_val]. unfold fix_to_dbl.
    rewrite fix_read by auto. auto.
  - change (inject_Z k / inject_Z (2 ^ Z.of_nat m))%Q with (q_value m k).
    assert (round_away (q_value m k * inject_Z (2 ^ Z.of_nat m)) = k) as Er.
    { rewrite (round_away_comp _ _ (q_value_mul m k)). apply round_away_int. }
    unfold param_set_val. cbn [to_bb_val pt_size]. unfold fix_of_dbl.
    assert (fix_in_range n m (DFin (q_value m k)) = true) as ->.
    { apply range_scaled. unfold q_range in Hk. split; apply q_value_le; lia. }
    cbn [obind]. rewrite fix_encode_eq by (auto; rewrite Er; auto). rewrite Er.
    apply write_same_word. rewrite word_of_u32 by auto. auto.
Qed.

(** ** Text, real value space *)

Lemma print_base_dec : forall n, 0 <= n -> exists ds, Forall2 dec_digit (print_base 10 n) ds /\ ds <> []
  /\ positional 10 ds = n.
Proof.
  intros n Hn. destruct (print_base_spec 10 n) as [ds [H1 [H2 [H3 H4]]]]; try lia.
  exists ds. split; auto. apply Forall2_good10. auto.
Qed.

Lemma fold_positional : forall ds a,
  fold_left (fun a d => 10 * a + d) ds a = a * 10 ^ Z.of_nat (List.length ds) + positional 10 ds.
Proof.
  unfold positional. induction ds as [|d ds IH]; intros a; cbn [fold_left List.length].
  - simpl. lia.
  - rewrite (IH (10 * a + d)), (IH (10 * 0 + d)), Nat2Z.inj_succ, Z.pow_succ_r by lia. lia.
Qed.

Lemma pad0_dec : forall m n, (0 < m)%nat -> 0 <= n < 10 ^ Z.of_nat m ->
  exists ds, Forall2 dec_digit (pad0 m (print_base 10 n)) ds /\ List.length ds = m /\ positional 10 ds = n.
Proof.
  intros m n Hm Hn. destruct (print_base_dec n) as [ds [H1 [H2 H3]]]; [lia|].
  pose proof (print_base_length 10 n m ltac:(lia) Hn Hm) as HL.
  exists (repeat 0 (m - List.length (print_base 10 n)) ++ ds). unfold pad0. split; [|split].
  - apply Forall2_app; auto. apply Forall2_good10. apply Forall2_repeat0. lia.
  - rewrite app_length, repeat_length. rewrite <- (Forall2_len _ _ _ _ _ H1). lia.
  - rewrite positional_leading_zeros. auto.
Qed.

Lemma print_fixed_real : forall m k, real_text (k <? 0) (print_fixed_dyadic m k) (q_value m (Z.abs k)).
Proof.
  intros m k. unfold print_fixed_dyadic.
  set (scaled := Z.abs k * 5 ^ Z.of_nat m).
  assert (0 < 10 ^ Z.of_nat m) as P10 by (apply Z.pow_pos_nonneg; lia).
  assert (0 < 5 ^ Z.of_nat m) as P5 by (apply Z.pow_pos_nonneg; lia).
  assert (0 <= scaled) as Hsc by (unfold scaled; lia).
  pose proof (Z.div_mod scaled (10 ^ Z.of_nat m) ltac:(lia)) as DM.
  pose proof (Z.mod_pos_bound scaled (10 ^ Z.of_nat m) P10) as MB.
  assert (0 <= scaled / 10 ^ Z.of_nat m) as Hip by (apply Z.div_pos; lia).
  destruct (print_base_dec _ Hip) as [ds1 [H1 [N1 V1]]].
  assert (forall a, (a == inject_Z scaled * Qpower 10 (0 - Z.of_nat m) -> q_value m (Z.abs k) == a)%Q) as Val.
  { intros a ->. unfold q_value, scaled. rewrite inject_Z_mult.
    assert (Qpower 10 (0 - Z.of_nat m) == / inject_Z (10 ^ Z.of_nat m))%Q as ->.
    { rewrite Z.sub_0_l, Qpower_opp. rewrite <- (Zpower_Qpower 10 (Z.of_nat m)) by lia. reflexivity. }
    assert (10 ^ Z.of_nat m = 5 ^ Z.of_nat m * 2 ^ Z.of_nat m) as ->.
    { change 10 with (5 * 2). apply Z.pow_mul_l. }
    rewrite inject_Z_mult. pose proof (inject_pow_pos m).
    assert (0 < inject_Z (5 ^ Z.of_nat m))%Q by (change 0%Q with (inject_Z 0); apply (proj1 (inject_Z_lt _ _)); auto).
    field. split; lra. }
  assert (sign_text (k <? 0) (if k <? 0 then ["-"%char] else [])) as Hs by (destruct (k <? 0); cbn; auto).
  destruct (Nat.eqb_spec m 0) as [->|Hm].
  - exists (if k <? 0 then ["-"%char] else []), (print_base 10 (scaled / 10 ^ Z.of_nat 0)), ds1, [], [], [], [], 0.
    do 5 (split; [auto|]). split; [rewrite app_nil_r; auto|]. split; [left; auto|].
    rewrite app_nil_r. apply Val. cbn [List.length]. rewrite V1. change (10 ^ Z.of_nat 0) with 1. rewrite Z.div_1_r.
    reflexivity.
  - destruct (pad0_dec m (scaled mod 10 ^ Z.of_nat m) ltac:(lia) MB) as [ds2 [H2 [L2 V2]]].
    exists (if k <? 0 then ["-"%char] else []), (print_base 10 (scaled / 10 ^ Z.of_nat m)), ds1,
      ("."%char :: pad0 m (print_base 10 (scaled mod 10 ^ Z.of_nat m))), (pad0 m (print_base 10 (scaled mod 10 ^ Z.of_nat m))),
      ds2, [], 0.
    split; [rewrite app_nil_r; auto|]. do 4 (split; [auto|]).
    split; [intros C; apply app_eq_nil in C; destruct C; auto|]. split; [left; auto|].
    apply Val. rewrite L2. apply Qmult_comp; [|reflexivity].
    rewrite positional_app, fold_positional, V1, V2, L2. rewrite Z.mul_comm, <- DM. reflexivity.
Qed.

Lemma real_text_not_hex : forall neg s q, real_text neg s q -> is_hexadecimal s = false.
Proof.
  intros neg s q H. destruct s as [|c0 [|c1 s]]; auto. unfold is_hexadecimal.
  assert (char_eqb c1 "x"%char = false /\ char_eqb c1 "X"%char = false) as [-> ->]; [|apply andb_false_r].
  destruct (real_text_chars neg _ q c1 H) as [[d Hd]|Hd]; [simpl; auto| |].
  - unfold dec_digit in Hd. split; apply char_eqb_neq; intros ->;
      [change (bval "x"%char) with 120 in Hd|change (bval "X"%char) with 88 in Hd]; lia.
  - simpl in Hd. destruct Hd as [<-|[<-|[<-|[<-|[<-|[]]]]]]; split; reflexivity.
Qed.

Lemma round64_q_value : forall m k, (m <= 31)%nat -> Z.abs k <= 2 ^ 31 -> (round64 (q_value m k) == q_value m k)%Q.
Proof.
  intros m k Hm Hk. apply (round_fp_exact 53 (-1074) k (- Z.of_nat m)); [|lia| |lia].
  - unfold q_value. change (Qpower 2 (- Z.of_nat m)) with (pow2 (- Z.of_nat m)).
    pose proof (pow2_opp (Z.of_nat m)) as P. rewrite (pow2_Z (Z.of_nat m)) in P by lia. pose proof (inject_pow_pos m).
    unfold Qdiv. apply Qmult_comp; [reflexivity|]. rewrite <- (Qmult_1_r (/ _)), <- P. field. lra.
  - change (2 ^ 31) with 2147483648 in Hk. change (2 ^ 53) with 9007199254740992. lia.
Qed.

(** Acceptance of a text: the double nearest to the number denoted must be in range. *)
Lemma fix_text_set : forall b n m h s neg q off bb, pt_wf (PFix b n m) = true -> (off + b <= List.length bb)%nat ->
  real_text neg s q ->
  let d := if neg then (- round64 q)%Q else round64 q in
  (q_value m (- 2 ^ (Z.of_nat n + Z.of_nat m)) <= d /\ d <= q_value m (2 ^ (Z.of_nat n + Z.of_nat m) - 1))%Q ->
  exists bb' k, param_set_str (PFix b n m) (Fmt false h) s off bb = Ok bb'
    /\ q_range n m k /\ (Qabs (q_value m k - d) <= (1 # 2) * q_value m 1)%Q
    /\ bb_read_int bb' b off = Ok (word_of b (justified b n m k))
    /\ List.length bb' = List.length bb
    /\ (forall i, (i < off \/ off + b <= i)%nat -> nth_error bb' i = nth_error bb i).
Proof.
  intros b n m h s neg q off bb Hwf Hoff Ht d Hd. apply pt_wf_fix in Hwf. destruct Hwf as [Hb Hs].
  assert (round64 q <= max64)%Q as Hmax.
  { assert (Z.of_nat n <= 31) as Hn by (unfold size_ok in Hb; lia). 
    assert (forall z, Z.abs z <= 2 ^ 32 * 2 ^ Z.of_nat m -> (q_value m z <= inject_Z (2 ^ 32) /\ - inject_Z (2 ^ 32) <= q_value m z)%Q) as B.
    { intros z Hz. pose proof (inject_pow_pos m) as P.
      split; apply (Qmult_le_r _ _ _ P); rewrite q_value_mul;
        [|rewrite <- inject_Z_opp]; rewrite <- inject_Z_mult; apply (proj1 (inject_Z_le _ _)); lia. }
    assert (2 ^ (Z.of_nat n + Z.of_nat m) <= 2 ^ 31 * 2 ^ Z.of_nat m) as Hp.
    { rewrite Z.pow_add_r by lia. apply Z.mul_le_mono_nonneg_r; [apply Z.pow_nonneg; lia|]. apply Z.pow_le_mono_r; lia. }
    assert (1 <= 2 ^ (Z.of_nat n + Z.of_nat m)) as Hp1.
    { assert (0 < 2 ^ (Z.of_nat n + Z.of_nat m)) by (apply Z.pow_pos_nonneg; lia). lia. }
    destruct (B (- 2 ^ (Z.of_nat n + Z.of_nat m))) as [_ B1]; [change (2 ^ 32) with (2 * 2 ^ 31); lia|].
    destruct (B (2 ^ (Z.of_nat n + Z.of_nat m) - 1)) as [B2 _]; [change (2 ^ 32) with (2 * 2 ^ 31); lia|].
    assert (inject_Z (2 ^ 32) <= max64)%Q as Hm by (apply Qle_bool_iff; vm_compute; reflexivity).
    unfold d in Hd. destruct Hd as [D1 D2]. destruct neg; lra. }
  destruct (convert_real_complete 53 (-1074) max64 neg s q Ht Hmax) as [r [Er Hr]].
  change (convert_real 53 (-1074) max64 s) with (convert_double s) in Er.
  assert (signed_q (neg, r) == d)%Q as Hsd.
  { unfold signed_q, d. cbn [fst snd]. destruct neg; rewrite Hr; reflexivity. }
  assert (round_away (signed_q (neg, r) * inject_Z (2 ^ Z.of_nat m)) = round_away (d * inject_Z (2 ^ Z.of_nat m))) as Era
    by (apply round_away_comp; rewrite Hsd; reflexivity).
  pose proof (scaled_bounds n m d Hd) as Hk. pose proof (quantum_error m d) as He.
  pose proof (fix_encode_eq b n m (signed_q (neg, r)) Hb Hs) as Ee. rewrite Era in Ee. specialize (Ee Hk).
  set (k := round_away (d * _)) in *.
  destruct (write_read_word bb (to_ctype t_uint32 (justified b n m k)) b off Hoff) as [bb' [W1 [W2 [W3 W4]]]].
  rewrite word_of_u32 in W3 by auto.
  exists bb', k. split; [|auto 10].
  unfold param_set_str. cbn [to_bb_str pt_size]. unfold fix_of_str. rewrite (real_text_not_hex neg s q Ht).
  cbn [f_raw negb andb]. rewrite Er. cbv zeta.
  assert (fix_in_range n m (DFin (signed_q (neg, r))) = true) as ->.
  { apply range_scaled. rewrite Hsd. auto. }
  cbn [obind]. rewrite Ee. auto.
Qed.

Lemma fix_text_refused : forall b n m h s off bb, ~ In formfeed s ->
  (forall neg q, real_text neg s q ->
     let d := if neg then (- round64 q)%Q else round64 q in
     ~ (q_value m (- 2 ^ (Z.of_nat n + Z.of_nat m)) <= d /\ d <= q_value m (2 ^ (Z.of_nat n + Z.of_nat m) - 1))%Q) ->
  param_set_str (PFix b n m) (Fmt false h) s off bb = Err.
Proof.
  intros b n m h s off bb Hff H. unfold param_set_str. cbn [to_bb_str]. unfold fix_of_str.
  cbn [f_raw negb]. rewrite andb_true_r. destruct (is_hexadecimal s); auto.
  destruct (convert_double s) as [[neg r]|] eqn:E; auto. cbv zeta.
  apply convert_real_sound in E; auto. destruct E as [q [Hq [-> _]]].
  destruct (fix_in_range n m (DFin (signed_q (neg, round64 q)))) eqn:E2.
  - apply range_scaled in E2. exfalso. apply (H neg q Hq). auto.
  - unfold round64 in E2. rewrite E2. auto.
Qed.

Lemma fix_text_write_back : forall b n m h off bb k, pt_wf (PFix b n m) = true -> (off + b <= List.length bb)%nat ->
  q_range n m k -> bb_read_int bb b off = Ok (word_of b (justified b n m k)) ->
  exists s, param_get_str (PFix b n m) (Fmt false h) off bb = Ok s
    /\ denotes_real s (q_value m k)
    /\ param_set_str (PFix b n m) (Fmt false h) s off bb = Ok bb.
Proof.
  intros b n m h off bb k Hwf Hoff Hk Hr. pose proof Hwf as Hw. apply pt_wf_fix in Hw. destruct Hw as [Hb Hs].
  pose proof (print_fixed_real m k) as Ht.
  exists (print_fixed_dyadic m k). split; [|split].
  - unfold param_get_str. cbn [pt_size]. rewrite Hr. cbn [obind from_bb_str]. unfold fix_to_str. cbn [f_raw].
    rewrite fix_read by auto. auto.
  - exists (k <? 0), (q_value m (Z.abs k)). split; auto. unfold q_value.
    destruct (Z.ltb_spec k 0).
    + rewrite Z.abs_neq, inject_Z_opp by lia. unfold Qdiv. ring.
    + rewrite Z.abs_eq by lia. reflexivity.
  - assert (m <= 31)%nat as Hm by (unfold size_ok in Hb; lia).
    assert (2 ^ (Z.of_nat n + Z.of_nat m) <= 2 ^ 31) as Hp by (apply Z.pow_le_mono_r; unfold size_ok in Hb; lia).
    assert (Z.abs k <= 2 ^ 31) as Hka by (unfold q_range in Hk; lia).
    pose proof (round64_q_value m (Z.abs k) Hm ltac:(lia)) as R.
    assert ((if k <? 0 then - round64 (q_value m (Z.abs k)) else round64 (q_value m (Z.abs k))) == q_value m k)%Q as Hd.
    { destruct (Z.ltb_spec k 0); rewrite R; unfold q_value.
      - rewrite Z.abs_neq, inject_Z_opp by lia. unfold Qdiv. ring.
      - rewrite Z.abs_eq by lia. reflexivity. }
    destruct (fix_text_set b n m h _ _ _ off bb Hwf Hoff Ht) as [bb' [k' [E [Hk' [He [W3 [W2 W4]]]]]]].
    { rewrite Hd. unfold q_range in Hk. split; apply q_value_le; lia. }
    assert (k' = k) as ->.
    { cbv zeta in He. rewrite Hd in He. pose proof (inject_pow_pos m) as P.
      apply (Qmult_le_r _ _ _ P) in He. rewrite <- (Qabs_pos (inject_Z (2 ^ Z.of_nat m))) in He at 1 by lra.
      rewrite <- Qabs_Qmult in He.
      assert ((q_value m k' - q_value m k) * inject_Z (2 ^ Z.of_nat m) == inject_Z (k' - k))%Q as Ex.
      { unfold Z.sub. rewrite inject_Z_plus, inject_Z_opp, <- (q_value_mul m k), <- (q_value_mul m k'). ring. }
      rewrite Ex, <- Qmult_assoc, q_value_mul in He. change (Qabs (inject_Z (k' - k))) with (inject_Z (Z.abs (k' - k))) in He.
      assert (Z.abs (k' - k) < 1); [|lia]. apply (proj2 (inject_Z_lt _ _)). change (inject_Z 1) with 1%Q in *. lra. }
    unfold param_set_str in E |- *. destruct (to_bb_str (PFix b n m) (Fmt false h) (print_fixed_dyadic m k)) as [u| | |]; try discriminate.
    cbn [obind pt_size] in *. apply write_same_word. rewrite Hr, <- W3. apply bb_write_int_read_same in E.
    rewrite E. unfold word_of. rewrite pow256. reflexivity.
Qed.

(** ** Text, raw value space *)

Lemma encodable_unsigned : forall b u, size_ok b -> 0 <= u < 2 ^ 32 ->
  (is_encodable b u false = true <-> u < 2 ^ (8 * Z.of_nat b)).
Proof.
  intros b u Hb Hu. unfold is_encodable. destruct (Nat.eqb_spec b 4) as [->|N].
  - change (8 * Z.of_nat 4) with 32. split; auto. lia.
  - cbn [negb]. rewrite Z.eqb_eq, Z.shiftr_div_pow2 by lia.
    assert (0 < 2 ^ (8 * Z.of_nat b)) by (apply Z.pow_pos_nonneg; lia).
    rewrite Z.div_small_iff by lia. lia.
Qed.

Lemma encodable_signed : forall b v, size_ok b -> -2147483648 <= v <= 2147483647 ->
  (is_encodable b (to_ctype t_uint32 v) true = true <-> width_lo true b <= v <= width_hi true b).
Proof.
  intros b v Hb Hv. unfold is_encodable, t_uint32. rewrite to_ctype_unsigned. unfold word_of.
  change (8 * Z.of_nat 4) with 32.
  assert (exists x, v mod 2 ^ 32 = x /\ 0 <= x < 4294967296 /\ (x = v \/ x = v + 4294967296)) as [x [-> [Hx1 Hx2]]].
  { exists (v mod 2 ^ 32). change (2 ^ 32) with 4294967296. split; auto. split; [apply Z.mod_pos_bound; lia|].
    destruct (Z.neg_nonneg_cases v).
    - right. rewrite <- (Z.mod_small (v + 4294967296) 4294967296) by lia.
      rewrite <- (Z.mul_1_l 4294967296) at 2. rewrite Z.mod_add by lia. auto.
    - left. apply Z.mod_small. lia. }
  unfold width_lo, width_hi. destruct Hb as [->|[->| ->]]; cbn [Nat.eqb negb].
  - change (8 * Z.of_nat 1) with 8. change (8 - 1) with 7.
    rewrite Z.testbit_eqb by lia. rewrite !Z.shiftr_div_pow2 by lia.
    change (2 ^ 7) with 128. change (2 ^ 8) with 256. change (2 ^ 32) with 4294967296.
    pose proof (Z.div_mod x 128 ltac:(lia)). pose proof (Z.mod_pos_bound x 128 ltac:(lia)).
    pose proof (Z.div_mod (x / 128) 2 ltac:(lia)). pose proof (Z.mod_pos_bound (x / 128) 2 ltac:(lia)).
    destruct (Z.eqb_spec (x / 128 mod 2) 1); rewrite Z.eqb_eq; rewrite Z.div_small_iff by lia; lia.
  - change (8 * Z.of_nat 2) with 16. change (16 - 1) with 15.
    rewrite Z.testbit_eqb by lia. rewrite !Z.shiftr_div_pow2 by lia.
    change (2 ^ 15) with 32768. change (2 ^ 16) with 65536. change (2 ^ 32) with 4294967296.
    pose proof (Z.div_mod x 32768 ltac:(lia)). pose proof (Z.mod_pos_bound x 32768 ltac:(lia)).
    pose proof (Z.div_mod (x / 32768) 2 ltac:(lia)). pose proof (Z.mod_pos_bound (x / 32768) 2 ltac:(lia)).
    destruct (Z.eqb_spec (x / 32768 mod 2) 1); rewrite Z.eqb_eq; rewrite Z.div_small_iff by lia; lia.
  - change (8 * Z.of_nat 4 - 1) with 31. change (2 ^ 31) with 2147483648. split; [lia|auto].
Qed.

Lemma is_hex_int_text : forall s v, int_text s v -> is_hexadecimal s = true <-> hex_prefixed s.
Proof. exact is_hex_prefixed. Qed.

Lemma fix_raw_of_str : forall b n m h s, size_ok b -> ~ In formfeed s ->
  (forall v, int_denotes true b s v -> width_lo true b <= v <= width_hi true b ->
     exists u, fix_of_str b n m (Fmt true h) s = Ok u /\ word_of b u = word_of b v)
  /\ ((forall v, int_denotes true b s v -> ~ (width_lo true b <= v <= width_hi true b)) ->
      fix_of_str b n m (Fmt true h) s = Err).
Proof.
  intros b n m h s Hb Hff. pose proof (size_ok_pos b Hb) as Hb0. unfold fix_of_str. cbn [f_raw negb]. rewrite andb_false_r.
  change (ct_hi t_uint32) with 4294967295 in *. split.
  - intros v Hd Hv. inversion Hd as [v' Hx Ht Hm|w Hx Ht Hw]; subst.
    + destruct (is_hexadecimal s) eqn:E; [apply (is_hex_prefixed s v Ht) in E; tauto|].
      assert (convertTo t_int32 s = Some v) as ->.
      { apply convertTo_spec; auto. split; auto. split; [|discriminate]. apply (width_in_i32 b v Hb Hv). }
      cbv zeta. assert (is_encodable b (to_ctype t_uint32 v) true = true) as ->.
      { apply encodable_signed; auto. pose proof (width_in_i32 b v Hb Hv) as W.
        change (ct_lo t_int32) with (-2147483648) in W. change (ct_hi t_int32) with 2147483647 in W. auto. }
      exists (to_ctype t_uint32 v). split; auto. apply word_of_u32. auto.
    + assert (is_hexadecimal s = true) as -> by (apply (is_hex_prefixed s w Ht); auto).
      assert (2 ^ (8 * Z.of_nat b) <= 2 ^ 32) as Hp by (apply Z.pow_le_mono_r; unfold size_ok in Hb; lia).
      change (2 ^ 32) with 4294967296 in Hp.
      assert (convertTo t_uint32 s = Some w) as ->.
      { apply convertTo_spec; auto. split; auto. split.
        - change (ct_lo t_uint32) with 0. change (ct_hi t_uint32) with 4294967295. lia.
        - intros _. destruct Hx as [r ->]. inversion Ht as [s' ds Hd' H2|s' ds Hd' H2|s' ds Hd' H2|s' ds Hd' H2]; subst.
          + apply Forall2_good10 in H2. apply in_chars_false. eapply good_no_minus; eauto.
          + apply Forall2_good16 in H2. intros [C|[C|C]]; try discriminate. revert C. apply in_chars_false. eapply good_no_minus; eauto. }
      assert (is_encodable b w false = true) as -> by (apply encodable_unsigned; auto; change (2 ^ 32) with 4294967296; lia).
      eexists. split; [reflexivity|]. rewrite word_of_u32 by auto. rewrite sign_extend_ct by auto.
      rewrite (word_of_small b w) by auto. reflexivity.
  - intros Hno. destruct (is_hexadecimal s) eqn:E.
    + destruct (convertTo t_uint32 s) as [w|] eqn:Ec; auto. apply convertTo_spec in Ec; auto. destruct Ec as [Ht [Hr Hm]].
      change (ct_lo t_uint32) with 0 in Hr. change (ct_hi t_uint32) with 4294967295 in Hr.
      apply (is_hex_prefixed s w Ht) in E.
      destruct (is_encodable b w false) eqn:Ee; auto. exfalso.
      apply encodable_unsigned in Ee; auto; [|change (2 ^ 32) with 4294967296; lia].
      apply (Hno (two_compl b w)).
      * apply (den_hex true b s w); auto. lia.
      * apply two_compl_range; auto. lia.
    + destruct (convertTo t_int32 s) as [v|] eqn:Ec; auto. apply convertTo_spec in Ec; auto. destruct Ec as [Ht [Hr Hm]].
      change (ct_lo t_int32) with (-2147483648) in Hr. change (ct_hi t_int32) with 2147483647 in Hr.
      cbv zeta. destruct (is_encodable b (to_ctype t_uint32 v) true) eqn:Ee; auto. exfalso.
      apply encodable_signed in Ee; auto. apply (Hno v); auto.
      apply den_dec; [|auto|discriminate]. intros Hx. apply (is_hex_prefixed s v Ht) in Hx. congruence.
Qed.

(** Any word can be read and written back. *)
Lemma fix_raw_write_back : forall b n m h off bb, size_ok b -> (off + b <= List.length bb)%nat ->
  exists s, param_get_str (PFix b n m) (Fmt true h) off bb = Ok s
    /\ param_set_str (PFix b n m) (Fmt true h) s off bb = Ok bb.
Proof.
  intros b n m h off bb Hb Hoff. pose proof (size_ok_pos b Hb) as Hb0.
  set (w := le_decode (slice bb off b)).
  assert (bb_read_int bb b off = Ok w) as Er by (apply bb_read_int_fits; auto).
  assert (0 <= w < 2 ^ (8 * Z.of_nat b)) as Hw.
  { pose proof (le_decode_range (slice bb off b)) as R. rewrite slice_length, pow256 in R by auto. auto. }
  exists (fix_to_str b n m (Fmt true h) w). unfold param_get_str, param_set_str. cbn [pt_size]. rewrite Er. cbn [obind from_bb_str to_bb_str].
  split; auto. unfold fix_to_str. cbn [f_raw f_hex]. destruct h.
  - destruct (fix_raw_of_str b n m true (print_hex (2 * b) w) Hb) as [F _].
    { eapply int_text_no_formfeed. apply print_hex_text. lia. }
    destruct (F (two_compl b w)) as [u [-> Hu]].
    + apply (den_hex true b _ w); [exists (pad0 (2 * b) (print_base 16 w)); reflexivity|apply print_hex_text; lia|auto].
    + apply two_compl_range; auto.
    + cbn [obind]. apply write_same_word. rewrite Er, Hu, word_two_compl, word_of_small; auto.
  - destruct (fix_raw_of_str b n m false (print_dec (sign_extend b (to_ctype t_int32 w))) Hb) as [F _].
    { eapply int_text_no_formfeed. apply print_dec_spec. }
    rewrite sign_extend_ct in * by auto. rewrite (word_of_small b w) in * by auto.
    destruct (F (two_compl b w)) as [u [-> Hu]].
    + apply den_dec; [|apply print_dec_spec|discriminate]. intros Hx.
      apply (is_hex_prefixed _ _ (print_dec_spec (two_compl b w))) in Hx. rewrite is_hexadecimal_print_dec in Hx. discriminate.
    + apply two_compl_range; auto.
    + cbn [obind]. apply write_same_word. rewrite Er, Hu, word_two_compl, word_of_small; auto.
Qed.

(** Distance between the number denoted by an accepted text and the stored one. *)
Lemma round64_error : forall q, (Qabs (round64 q - q) <= Qabs q * Qpower 2 (-53) + Qpower 2 (-1075))%Q.
Proof.
  intros q. change (Qpower 2 (-53)) with (pow2 (-53)). change (Qpower 2 (-1075)) with (pow2 (-1075)).
  assert (0 <= Qabs q * pow2 (-53))%Q by (apply Qmult_le_0_compat; [apply Qabs_nonneg|apply Qlt_le_weak, pow2_pos]).
  assert (0 <= pow2 (-1075))%Q by (apply Qlt_le_weak, pow2_pos).
  destruct (round_fp_rel_error 53 (-1074) q) as [E|E].
  - unfold round64. eapply Qle_trans; [exact E|]. rewrite <- Qplus_0_r at 1. apply Qplus_le_compat; auto. apply Qle_refl.
  - unfold round64. eapply Qle_trans; [exact E|]. rewrite <- Qplus_0_l at 1. apply Qplus_le_compat; auto. apply Qle_refl.
Qed.

Lemma fix_text_error : forall m k (neg : bool) q,
  (Qabs (q_value m k - (if neg then - round64 q else round64 q)) <= (1 # 2) * q_value m 1)%Q ->
  (Qabs (q_value m k - (if neg then - q else q)) <= (1 # 2) * q_value m 1 + (Qabs q * Qpower 2 (-53) + Qpower 2 (-1075)))%Q.
Proof.
  intros m k neg q H. pose proof (round64_error q) as E.
  setoid_replace (q_value m k - (if neg then - q else q))%Q
    with ((q_value m k - (if neg then - round64 q else round64 q)) + ((if neg then - round64 q else round64 q) - (if neg then - q else q)))%Q by ring.
  eapply Qle_trans; [apply Qabs_triangle|]. apply Qplus_le_compat; auto.
  destruct neg; auto. setoid_replace (- round64 q - - q)%Q with (- (round64 q - q))%Q by ring. rewrite Qabs_opp. auto.
Qed.
