(** Proofs about selection criteria. *)
From Coq Require Import List Arith ZArith Bool Ascii String Lia ZifyBool Permutation.
From Verif Require Import Base BaseProofs TextModel TextSpec TextProofs CriterionModel CriterionSpec.
Import ListNotations.
Open Scope Z_scope.

Lemma map_find_Some : forall m k v, map_find k m = Some v -> In (k, v) m.
Proof.
  induction m as [|[k' v'] m IH]; simpl; intros k v H; [discriminate|].
  destruct (str_eqb k' k) eqn:E.
  - apply str_eqb_eq in E. inversion H; subst. auto.
  - right. auto.
Qed.

Lemma map_find_None : forall m k, map_find k m = None <-> ~ In k (map fst m).
Proof.
  induction m as [|[k' v'] m IH]; simpl; intros k; [tauto|].
  destruct (str_eqb k' k) eqn:E.
  - apply str_eqb_eq in E. split; [discriminate|]. intros H. exfalso. auto.
  - apply str_eqb_neq in E. rewrite IH. intuition.
Qed.

Lemma map_find_In : forall m k v, NoDup (map fst m) -> In (k, v) m -> map_find k m = Some v.
Proof.
  induction m as [|[k' v'] m IH]; simpl; intros k v Hn H; [contradiction|].
  inversion Hn as [|? ? Hni Hn']; subst.
  destruct (str_eqb k' k) eqn:E.
  - apply str_eqb_eq in E. subst k'. destruct H as [H|H]; [congruence|].
    exfalso. apply Hni. apply (in_map fst) in H. auto.
  - destruct H as [H|H]; [inversion H; subst; rewrite str_eqb_refl in E; discriminate|auto].
Qed.

Lemma map_literal_Some : forall m v k, map_literal v m = Some k -> In (k, v) m.
Proof.
  induction m as [|[k' v'] m IH]; simpl; intros v k H; [discriminate|].
  destruct (Z.eqb_spec v' v); [inversion H; subst; auto|right; auto].
Qed.

Lemma map_literal_In : forall m k v, NoDup (map snd m) -> In (k, v) m -> map_literal v m = Some k.
Proof.
  induction m as [|[k' v'] m IH]; simpl; intros k v Hn H; [contradiction|].
  inversion Hn as [|? ? Hni Hn']; subst.
  destruct (Z.eqb_spec v' v).
  - subst v'. destruct H as [H|H]; [congruence|].
    exfalso. apply Hni. apply (in_map snd) in H. auto.
  - destruct H as [H|H]; [congruence|auto].
Qed.

Lemma map_literal_None : forall m v, map_literal v m = None -> ~ In v (map snd m).
Proof.
  induction m as [|[k' v'] m IH]; simpl; intros v H; [tauto|].
  destruct (Z.eqb_spec v' v); [discriminate|]. intros [K|K]; [congruence|]. apply (IH v); auto.
Qed.

Lemma map_add_perm : forall m k v, Permutation (map_add k v m) ((k, v) :: m).
Proof.
  induction m as [|[k' v'] m IH]; simpl; intros k v; auto.
  destruct (str_ltb k k'); auto.
  rewrite (IH k v). apply perm_swap.
Qed.

Lemma single_bit_test : forall v, 0 < v <= 2 ^ 31 - 1 -> (Z.land v (v - 1) = 0 <-> single_bit v).
Proof.
  intros v Hv. split.
  - intros H. exists (Z.log2 v).
    assert (0 <= Z.log2 v) by apply Z.log2_nonneg.
    pose proof (Z.log2_spec v ltac:(lia)) as [L1 L2].
    split.
    + split; auto. apply Z.log2_lt_pow2; lia.
    + destruct (Z.eq_dec v (2 ^ Z.log2 v)); auto. exfalso.
      assert (Z.testbit (Z.land v (v - 1)) (Z.log2 v) = true) as T.
      { rewrite Z.land_spec. rewrite Z.bit_log2 by lia.
        assert (Z.log2 (v - 1) = Z.log2 v) as E by (apply Z.log2_unique; lia).
        rewrite <- E. rewrite Z.bit_log2 by lia. reflexivity. }
      rewrite H, Z.bits_0 in T. discriminate.
  - intros [k [Hk ->]]. replace (2 ^ k - 1) with (Z.ones k) by (rewrite Z.ones_equiv; lia).
    rewrite Z.land_ones by lia. apply Z.mod_same. lia.
Qed.

Lemma land_pred_neg : forall v, v < 0 -> Z.land v (v - 1) <> 0.
Proof. intros v Hv H. assert (Z.land v (v - 1) < 0) by (apply Z.land_neg; lia). lia. Qed.

(** Exact behaviour of addValuePair. *)
Lemma cty_add_spec : forall t v l, is_int v -> (cty_incl t = true -> v <> - 2 ^ 31) ->
  match cty_add t v l with
  | Ok t' => (cty_incl t = true -> single_bit v)
             /\ (forall w, ~ In (l, w) (cty_map t)) /\ (forall k, ~ In (k, v) (cty_map t))
             /\ cty_incl t' = cty_incl t
             /\ Permutation (cty_map t') ((l, v) :: cty_map t)
  | Err => (cty_incl t = true /\ ~ single_bit v)
           \/ (exists w, In (l, w) (cty_map t)) \/ (exists k, In (k, v) (cty_map t))
  | _ => False
  end.
Proof.
  intros t v l Hv Hm. unfold cty_add. unfold is_int in Hv.
  destruct (cty_incl t && (v =? - 2 ^ 31)) eqn:E0.
  { apply andb_true_iff in E0. destruct E0 as [E0 E1]. apply Z.eqb_eq in E1. apply Hm; auto. }
  destruct (cty_incl t && ((v =? 0) || negb (Z.land v (v - 1) =? 0))) eqn:E1.
  { apply andb_true_iff in E1. destruct E1 as [E1 E2]. left. split; auto.
    apply orb_true_iff in E2. intros [k [Hk ->]]. destruct E2 as [E2|E2].
    - apply Z.eqb_eq in E2. assert (0 < 2 ^ k) by (apply Z.pow_pos_nonneg; lia). lia.
    - apply negb_true_iff, Z.eqb_neq in E2. apply E2. apply single_bit_test; [lia|]. exists k. auto. }
  destruct (map_find l (cty_map t)) as [w|] eqn:E2.
  { right. left. exists w. apply map_find_Some; auto. }
  destruct (existsb (fun p => snd p =? v) (cty_map t)) eqn:E3.
  { right. right. apply existsb_exists in E3. destruct E3 as [[k w] [H1 H2]]. simpl in H2.
    apply Z.eqb_eq in H2. subst w. eauto. }
  split; [|split; [|split; [|split]]].
  - intros Hi. rewrite Hi in *. cbn [andb] in *. apply orb_false_iff in E1. destruct E1 as [Ea Eb].
    apply negb_false_iff, Z.eqb_eq in Eb. apply Z.eqb_neq in Ea.
    destruct (Z_lt_le_dec v 0) as [L|L]; [exfalso; apply (land_pred_neg v); auto|].
    apply single_bit_test; auto; lia.
  - intros w Hw. apply map_find_None in E2. apply E2. apply (in_map fst) in Hw. auto.
  - intros k Hk. assert (existsb (fun p => snd p =? v) (cty_map t) = true); [|congruence].
    apply existsb_exists. exists (k, v). split; auto. simpl. lia.
  - reflexivity.
  - apply map_add_perm.
Qed.

Lemma cty_add_int_min : forall t l, cty_incl t = true -> cty_add t (- 2 ^ 31) l = UB.
Proof. intros t l H. unfold cty_add. rewrite H. reflexivity. Qed.

(** Invariant of the types built through the API. *)
Lemma built_inv : forall incl t, built incl t ->
  cty_incl t = incl /\ NoDup (map fst (cty_map t)) /\ NoDup (map snd (cty_map t))
  /\ (incl = true -> forall l v, In (l, v) (cty_map t) -> v = 0 \/ single_bit v)
  /\ (incl = true -> In (lit "none", 0) (cty_map t))
  /\ (forall l v, In (l, v) (cty_map t) -> is_int v).
Proof.
  intros incl t H. induction H as [|t v l t' Hb IH Hv Ha].
  - unfold cty_new. destruct incl; cbn [cty_incl cty_map map fst snd].
    + split; [reflexivity|]. split; [repeat constructor; simpl; tauto|]. split; [repeat constructor; simpl; tauto|].
      split; [intros _ l v [H|[]]; inversion H; auto|]. split; [simpl; auto|].
      intros l v [H|[]]. inversion H; subst. unfold is_int. lia.
    + split; [reflexivity|]. split; [constructor|]. split; [constructor|].
      split; [discriminate|]. split; [discriminate|]. intros l v [].
  - destruct IH as [I1 [I2 [I3 [I4 [I5 I6]]]]].
    assert (cty_incl t = true -> v <> - 2 ^ 31) as Hm.
    { intros Hi Ev. subst v. rewrite cty_add_int_min in Ha by auto. discriminate. }
    pose proof (cty_add_spec t v l Hv Hm) as S. rewrite Ha in S. destruct S as [S1 [S2 [S3 [S4 S5]]]].
    rewrite S4. split; [auto|].
    assert (forall k w, In (k, w) (cty_map t') -> (k = l /\ w = v) \/ In (k, w) (cty_map t)) as Hin.
    { intros k w K. apply (Permutation_in _ S5) in K. destruct K as [K|K]; [inversion K; auto|auto]. }
    split; [|split; [|split; [|split]]].
    + eapply Permutation_NoDup; [apply Permutation_map, Permutation_sym, S5|]. simpl. constructor; auto.
      intros K. apply in_map_iff in K. destruct K as [[k w] [E K]]. simpl in E. subst k. apply (S2 w); auto.
    + eapply Permutation_NoDup; [apply Permutation_map, Permutation_sym, S5|]. simpl. constructor; auto.
      intros K. apply in_map_iff in K. destruct K as [[k w] [E K]]. simpl in E. subst w. apply (S3 k); auto.
    + intros Hi k w K. apply Hin in K. destruct K as [[-> ->]|K]; [|apply (I4 Hi k w K)].
      right. apply S1. congruence.
    + intros Hi. apply (Permutation_in _ (Permutation_sym S5)). right. auto.
    + intros k w K. apply Hin in K. destruct K as [[-> ->]|K]; [auto|apply (I6 k w K)].
Qed.

(** Literal and number correspond. *)
Lemma built_lookup : forall incl t l v, built incl t ->
  (cty_atomic t l = Some v <-> In (l, v) (cty_map t))
  /\ (cty_literal t v = Some l <-> In (l, v) (cty_map t)).
Proof.
  intros incl t l v H. apply built_inv in H. destruct H as [_ [I2 [I3 _]]]. split; split; intros K.
  - apply map_find_Some; auto.
  - apply map_find_In; auto.
  - apply map_literal_Some; auto.
  - apply map_literal_In; auto.
Qed.

(** ** Values from text *)

Lemma cty_or_all_spec : forall t toks acc v, NoDup (map fst (cty_map t)) ->
  (cty_or_all t toks acc = Some v
   <-> exists vs, Forall2 (fun k w => In (k, w) (cty_map t)) toks vs /\ v = fold_left Z.lor vs acc).
Proof.
  intros t toks acc v Hn. revert acc. induction toks as [|k toks IH]; intros acc; simpl.
  - split.
    + intros H. inversion H; subst. exists []. auto.
    + intros [vs [H ->]]. inversion H; subst. reflexivity.
  - destruct (cty_atomic t k) as [w|] eqn:E.
    + rewrite IH. apply map_find_Some in E. split; intros [vs [H ->]].
      * exists (w :: vs). auto.
      * inversion H as [|? w' ? vs' H1 H2]; subst. exists vs'. split; auto. simpl.
        assert (w' = w) as ->; auto.
        apply (map_find_In _ _ _ Hn) in H1. apply (map_find_In _ _ _ Hn) in E. congruence.
    + split; [discriminate|]. intros [vs [H _]]. inversion H as [|? w ? ? H1 _]; subst.
      apply (map_find_In _ _ _ Hn) in H1. unfold cty_atomic in E. congruence.
Qed.

Lemma cty_numerical_spec : forall t s v, NoDup (map fst (cty_map t)) ->
  (cty_numerical t s = Some v <-> value_denotes t s v).
Proof.
  intros t s v Hn. unfold cty_numerical, value_denotes. destruct (cty_incl t).
  - rewrite cty_or_all_spec by auto. split.
    + intros [vs [H1 H2]]. exists (split s (lit "|") true), vs. split; auto. apply split_merge_spec. reflexivity.
    + intros [toks [vs [H1 [H2 H3]]]]. apply split_merge_spec in H1. subst toks. eauto.
  - unfold cty_atomic. split; [apply map_find_Some|apply map_find_In; auto].
Qed.

(** ** Formatted state *)

Lemma shl1 : forall k, 0 <= k < 31 -> to_ctype t_int32 (Z.shiftl 1 k) = 2 ^ k.
Proof.
  intros k Hk. rewrite Z.shiftl_mul_pow2, Z.mul_1_l by lia.
  assert (0 < 2 ^ k) by (apply Z.pow_pos_nonneg; lia).
  assert (2 ^ k <= 2 ^ 30) by (apply Z.pow_le_mono_r; lia).
  change (2 ^ 30) with 1073741824 in *.
  unfold to_ctype, t_int32; cbn [ct_signed ct_bytes].
  change (2 ^ (8 * Z.of_nat 4)) with 4294967296. 
  rewrite Z.mod_small by lia.
  destruct (Z.leb_spec (4294967296 / 2) (2 ^ k)) as [L|L].
  - change (4294967296 / 2) with 2147483648 in L. lia.
  - reflexivity.
Qed.

Lemma land_pow2 : forall v k, 0 <= k -> Z.land v (2 ^ k) = if Z.testbit v k then 2 ^ k else 0.
Proof.
  intros v k Hk. apply Z.bits_inj'. intros i Hi. rewrite Z.land_spec, Z.pow2_bits_eqb by lia.
  destruct (Z.eqb_spec k i).
  - subst i. destruct (Z.testbit v k) eqn:E; [rewrite Z.pow2_bits_true by lia; reflexivity|rewrite Z.bits_0; reflexivity].
  - rewrite andb_false_r. destruct (Z.testbit v k); [rewrite Z.pow2_bits_false by lia; reflexivity|rewrite Z.bits_0; reflexivity].
Qed.

(** The literals of the bits, lowest first. *)
Lemma cty_bits_spec : forall t v n k, NoDup (map snd (cty_map t)) -> 0 <= v < 2 ^ 31 ->
  0 <= k -> k + Z.of_nat n <= 32 ->
  (forall i, 0 <= i < 31 -> Z.testbit v i = true -> exists l, In (l, 2 ^ i) (cty_map t)) ->
  exists vs, Forall2 (fun l w => In (l, w) (cty_map t)) (cty_bits t v k n) vs
    /\ forall acc i, 0 <= i ->
         Z.testbit (fold_left Z.lor vs acc) i
         = Z.testbit acc i || (Z.testbit v i && (k <=? i) && (i <? k + Z.of_nat n)).
Proof.
  intros t v n. induction n as [|n IH]; intros k Hn Hv Hk Hkn Hd.
  - exists []. split; [constructor|]. intros acc i Hi. simpl.
    replace ((k <=? i) && (i <? k + 0)) with false by lia.
    rewrite <- andb_assoc. replace ((k <=? i) && (i <? k + 0)) with false by lia.
    rewrite andb_false_r, orb_false_r. reflexivity.
  - destruct (IH (k + 1) Hn Hv ltac:(lia) ltac:(lia) Hd) as [vs [H1 H2]].
    cbn [cty_bits].
    assert (exists ws, Forall2 (fun l w => In (l, w) (cty_map t))
              (if Z.land v (to_ctype t_int32 (Z.shiftl 1 k)) =? 0 then []
               else match cty_literal t (Z.land v (to_ctype t_int32 (Z.shiftl 1 k))) with
                    | Some l => [l] | None => [] end) ws
            /\ forall acc i, 0 <= i -> Z.testbit (fold_left Z.lor ws acc) i
                 = Z.testbit acc i || (Z.testbit v i && (k =? i))) as [ws [W1 W2]].
    { destruct (Z.eq_dec k 31) as [->|Nk].
      - assert (Z.land v (to_ctype t_int32 (Z.shiftl 1 31)) = 0) as ->.
        { change (to_ctype t_int32 (Z.shiftl 1 31)) with (-2147483648).
          apply Z.bits_inj'. intros i Hi. rewrite Z.land_spec, Z.bits_0.
          change (-2147483648) with (Z.shiftl (-1) 31). rewrite Z.shiftl_spec by lia.
          destruct (Z_lt_le_dec i 31).
          - rewrite (Z.testbit_neg_r (-1)) by lia. apply andb_false_r.
          - replace (Z.testbit v i) with false; [reflexivity|]. symmetry.
            destruct (Z.eq_dec v 0) as [->|]; [apply Z.bits_0|].
            apply Z.bits_above_log2; [lia|]. apply Z.lt_le_trans with 31; auto. apply Z.log2_lt_pow2; lia. }
        exists []. split; [constructor|]. intros acc i Hi. cbn [fold_left].
        destruct (Z.eqb_spec 31 i) as [<-|]; [|rewrite andb_false_r, orb_false_r; reflexivity].
        replace (Z.testbit v 31) with false; [rewrite orb_false_r; reflexivity|]. symmetry.
        destruct (Z.eq_dec v 0) as [->|]; [apply Z.bits_0|].
        apply Z.bits_above_log2; [lia|]. apply Z.log2_lt_pow2; lia.
      - rewrite shl1 by lia. rewrite land_pow2 by lia.
        destruct (Z.testbit v k) eqn:Eb.
        + assert (0 < 2 ^ k) by (apply Z.pow_pos_nonneg; lia).
          destruct (Z.eqb_spec (2 ^ k) 0); [lia|].
          destruct (Hd k ltac:(lia) Eb) as [l Hl].
          unfold cty_literal. rewrite (map_literal_In _ l) by auto.
          exists [2 ^ k]. split; [constructor; auto|]. intros acc i Hi. cbn [fold_left].
          rewrite Z.lor_spec, Z.pow2_bits_eqb by lia.
          destruct (Z.eqb_spec k i) as [<-|]; [rewrite Eb; reflexivity|rewrite andb_false_r; reflexivity].
        + exists []. split; [constructor|]. intros acc i Hi. cbn [fold_left].
          destruct (Z.eqb_spec k i) as [<-|]; [rewrite Eb|rewrite andb_false_r]; rewrite orb_false_r; reflexivity. }
    exists (ws ++ vs). split; [apply Forall2_app; auto|].
    intros acc i Hi. rewrite fold_left_app, H2, W2 by auto.
    destruct (Z.testbit acc i); cbn [orb]; auto.
    destruct (Z.testbit v i); cbn [andb orb]; auto.
    destruct (Z.eqb_spec k i); lia.
Qed.

Lemma cty_formatted_numerical : forall incl t v, built incl t ->
  (forall l w, In (l, w) (cty_map t) -> l <> [] /\ (incl = true -> ~ In "|"%char l)) ->
  (if incl then 0 < v < 2 ^ 31 /\ forall i, 0 <= i < 31 -> Z.testbit v i = true -> exists l, In (l, 2 ^ i) (cty_map t)
   else exists l, In (l, v) (cty_map t)) ->
  cty_numerical t (cty_formatted t v) = Some v.
Proof.
  intros incl t v Hb Hl Hv. pose proof (built_inv incl t Hb) as [I1 [I2 [I3 _]]].
  apply cty_numerical_spec; auto. unfold value_denotes, cty_formatted. rewrite I1. destruct incl.
  - destruct Hv as [Hv Hd].
    destruct (cty_bits_spec t v 32 0 I3 ltac:(lia) ltac:(lia) ltac:(lia) Hd) as [vs [H1 H2]].
    assert (fold_left Z.lor vs 0 = v) as Ev.
    { apply Z.bits_inj'. intros i Hi. rewrite H2 by auto. rewrite Z.bits_0. cbn [orb].
      destruct (Z.testbit v i) eqn:Eb; cbn [andb]; auto.
      destruct (Z_lt_le_dec i 32); [lia|]. exfalso.
      rewrite Z.bits_above_log2 in Eb; [discriminate|lia|].
      apply Z.lt_le_trans with 31; [apply Z.log2_lt_pow2; lia|lia]. }
    assert (forall l, In l (cty_bits t v 0 32) -> l <> [] /\ ~ In "|"%char l) as Hbits.
    { intros l K. clear -K H1 Hl. induction H1 as [|k w ks ws Hk H IH]; [contradiction|].
      destruct K as [->|K]; auto. destruct (Hl l w Hk) as [A B]. split; auto. }
    remember (cty_bits t v 0 32) as bits eqn:Ebits.
    assert (bits <> []) as Hne.
    { intros ->. inversion H1; subst vs. simpl in Ev. lia. }
    assert (join (lit "|") bits <> []) as Hj.
    { destruct bits as [|x [|y r]]; [congruence| |].
      - rewrite join_single. apply Hbits. simpl; auto.
      - rewrite join_cons2. destruct x; [|discriminate].
        destruct (Hbits [] (or_introl eq_refl)) as [K _]. congruence. }
    destruct (join (lit "|") bits) eqn:Ej; [congruence|]. rewrite <- Ej.
    exists bits, vs. split; [|split; auto]. 
    change (lit "|") with ["|"%char]. apply runs_join; auto.
    + simpl; auto.
    + apply Forall_forall. intros x Hx. destruct (Hbits x Hx) as [A B]. split; auto. intros c Hc [K|[]]. subst c. auto.
  - destruct Hv as [l Hin]. unfold cty_literal. rewrite (map_literal_In _ l v) by auto.
    destruct l as [|c l]; [|auto]. destruct (Hl [] v Hin) as [K _]. congruence.
Qed.

(** ** States *)

Lemma crits_set_nth : forall cs i v j,
  nth_error (crits_set cs i v) j
  = if Nat.eqb i j then option_map (fun c => cr_set c v) (nth_error cs j) else nth_error cs j.
Proof.
  induction cs as [|c cs IH]; intros i v j; simpl.
  - destruct j; destruct (Nat.eqb i _); reflexivity.
  - destruct i as [|i], j as [|j]; simpl; auto.
Qed.

Lemma crits_set_length : forall cs i v, List.length (crits_set cs i v) = List.length cs.
Proof. induction cs as [|c cs IH]; intros [|i] v; simpl; auto. Qed.

Lemma cr_set_state : forall c v, cr_state (cr_set c v) = v.
Proof. intros c v. unfold cr_set. destruct (Z.eqb_spec (cr_state c) v); auto. Qed.

Lemma settings_state : forall ops cs i c,
  nth_error cs i = Some c ->
  exists c', nth_error (fold_left (fun cs p => crits_set cs (fst p) (snd p)) ops cs) i = Some c'
    /\ cr_state c' = last_setting ops i (cr_state c)
    /\ cr_name c' = cr_name c /\ cr_type c' = cr_type c.
Proof.
  induction ops as [|[j v] ops IH]; intros cs i c H; simpl.
  - exists c. auto.
  - pose proof (crits_set_nth cs j v i) as N. rewrite H in N.
    destruct (Nat.eqb j i) eqn:E; simpl in N.
    + destruct (IH _ _ _ N) as [c' [H1 [H2 [H3 H4]]]]. exists c'. split; auto.
      rewrite cr_set_state in H2. split; auto.
      assert (cr_name (cr_set c v) = cr_name c /\ cr_type (cr_set c v) = cr_type c) as [K1 K2].
      { unfold cr_set. destruct (cr_state c =? v); auto. }
      split; congruence.
    + apply (IH _ _ _ N).
Qed.

Definition do_op (cs : list criterion) (o : crit_op) : list criterion :=
  match o with SetState i v => crits_set cs i v | Apply => crits_reset cs end.

Lemma mod_succ : forall a, (a mod 2 ^ 32 + 1) mod 2 ^ 32 = (a + 1) mod 2 ^ 32.
Proof. intros a. rewrite Z.add_mod_idemp_l; [reflexivity|discriminate]. Qed.

Lemma ops_history : forall ops cs i c n,
  nth_error cs i = Some c -> cr_mods c = n mod 2 ^ 32 ->
  exists c', nth_error (fold_left do_op ops cs) i = Some c'
    /\ cr_state c' = fst (history i ops (cr_state c) n)
    /\ cr_mods c' = snd (history i ops (cr_state c) n) mod 2 ^ 32
    /\ cr_name c' = cr_name c /\ cr_type c' = cr_type c.
Proof.
  induction ops as [|[j v|] ops IH]; intros cs i c n H Hn; simpl.
  - exists c. auto.
  - pose proof (crits_set_nth cs j v i) as E. rewrite H in E. destruct (Nat.eqb_spec j i).
    + simpl in E. specialize (IH _ i _ (if v =? cr_state c then n else n + 1) E).
      rewrite cr_set_state in IH. destruct IH as [c' [A [B [C [D F]]]]].
      { unfold cr_set. rewrite (Z.eqb_sym v). destruct (cr_state c =? v); auto. cbn [cr_mods].
        change (to_ctype t_uint32 (cr_mods c + 1)) with ((cr_mods c + 1) mod 2 ^ 32). rewrite Hn. apply mod_succ. }
      exists c'. repeat split; auto.
      * rewrite D. unfold cr_set. destruct (cr_state c =? v); auto.
      * rewrite F. unfold cr_set. destruct (cr_state c =? v); auto.
    + apply IH; auto.
  - assert (nth_error (crits_reset cs) i = Some (cr_reset c)) as E by (apply map_nth_error; auto).
    specialize (IH _ i _ 0 E eq_refl). exact IH.
Qed.

Lemma ops_length : forall ops cs, List.length (fold_left do_op ops cs) = List.length cs.
Proof.
  induction ops as [|[j v|] ops IH]; intros cs; simpl; auto; rewrite IH; [apply crits_set_length|apply map_length].
Qed.

Lemma history_count : forall ops i s n, 0 <= n -> 0 <= snd (history i ops s n) <= n + Z.of_nat (List.length ops).
Proof.
  induction ops as [|[j v|] ops IH]; intros i s n Hn; cbn [history List.length]; [simpl; lia| |].
  - destruct (Nat.eqb j i); [|specialize (IH i s n Hn); lia].
    destruct (v =? s); [specialize (IH i v n Hn)|specialize (IH i v (n + 1) ltac:(lia))]; lia.
  - specialize (IH i s 0 ltac:(lia)). lia.
Qed.

(** The counter wraps: 2^32 changes look like none. *)
Lemma alternate : forall m s n, (s = 0 \/ s = 1) ->
  exists ops, history 0 ops s n = (s, n + 2 * Z.of_nat m).
Proof.
  induction m as [|m IH]; intros s n Hs.
  - exists []. simpl. f_equal. lia.
  - destruct (IH s (n + 2) Hs) as [ops E].
    exists (SetState 0 (1 - s) :: SetState 0 s :: ops). cbn [history Nat.eqb].
    destruct Hs as [-> | ->]; cbn [Z.eqb Z.sub Z.add Z.opp Z.pos_sub]; 
      replace (n + 1 + 1) with (n + 2) by lia; rewrite E; f_equal; lia.
Qed.
