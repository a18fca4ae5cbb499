(** Lemmas for the theorems on the C interface. *)
From Coq Require Import List Arith ZArith Bool Ascii String Lia Permutation.
From Verif Require Import Base BaseProofs TextModel ParamTypeModel BlackboardModel BlackboardProofs TreeModel TreeSpec CriterionModel CriterionSpec CriterionProofs SyncModel DomainModel
  MgrModel MgrSpec MgrSkel ValueSpec LoadModel LoadSpec CapiModel CapiSpec.
Import ListNotations.
Local Open Scope nat_scope.

(** ** Creation of the criteria *)

Fixpoint numbered (incl : bool) (i : nat) (vs : list str) : list (str * Z) :=
  match vs with [] => [] | v :: r => (v, number incl i) :: numbered incl (S i) r end.

Lemma numbered_In : forall incl vs i l v, In (l, v) (numbered incl i vs) <-> exists j, nth_error vs j = Some l /\ v = number incl (i + j).
Proof.
  induction vs as [|x vs IH]; intros i l v; cbn [numbered In]; split; try (intros []; fail).
  - intros [j [H _]]. destruct j; discriminate.
  - intros [H|H].
    + inversion H; subst. exists 0. rewrite Nat.add_0_r. auto.
    + apply IH in H. destruct H as [j [A B]]. exists (S j). rewrite Nat.add_succ_r. auto.
  - intros [[|j] [A B]]; simpl in A.
    + inversion A; subst. rewrite Nat.add_0_r. auto.
    + right. apply IH. exists j. rewrite Nat.add_succ_r in B. auto.
Qed.

Lemma numbered_fst : forall incl vs i, map fst (numbered incl i vs) = vs.
Proof. induction vs as [|x vs IH]; intros i; cbn [numbered map fst]; [|rewrite IH]; auto. Qed.

Lemma number_lt : forall incl i j, i < j -> (number incl i < number incl j)%Z.
Proof. intros [] i j H; unfold number; [apply Z.pow_lt_mono_r|]; lia. Qed.

Lemma number_nonneg : forall incl i, (0 <= number incl i)%Z.
Proof. intros [] i; unfold number; [apply Z.pow_nonneg|]; lia. Qed.

Lemma max_shift : forall i, (0 <= i)%Z -> ((Z.shiftr (2 ^ 31 - 1) i =? 0) = (31 <=? i))%Z.
Proof.
  intros i H. rewrite Z.shiftr_div_pow2 by lia. destruct (Z.leb_spec 31 i) as [L|L].
  - apply Z.eqb_eq. apply Z.div_small. split; [lia|]. assert (2 ^ 31 <= 2 ^ i)%Z by (apply Z.pow_le_mono_r; lia). lia.
  - apply Z.eqb_neq. assert (2 ^ i <= 2 ^ 30)%Z by (apply Z.pow_le_mono_r; lia). assert (0 < 2 ^ i)%Z by (apply Z.pow_pos_nonneg; lia).
    assert (1 <= (2 ^ 31 - 1) / 2 ^ i)%Z by (apply Z.div_le_lower_bound; lia). lia.
Qed.

(** The number the code gives to the value at index [i]. *)
Lemma code_number : forall (incl : bool) i, (Z.of_nat i < if incl then 31 else 2 ^ 31)%Z ->
  (if incl then Z.shiftl 1 (Z.of_nat i) else to_ctype t_int32 (Z.of_nat i)) = number incl i.
Proof.
  intros [] i H; unfold number.
  - rewrite Z.shiftl_mul_pow2 by lia. lia.
  - unfold to_ctype, t_int32; cbn. match goal with |- context [(?a mod ?b)%Z] => rewrite (Z.mod_small a b) by lia end.
    try (destruct (Z.ltb_spec (Z.of_nat i) 2147483648); lia); try (destruct (Z.leb_spec 2147483648 (Z.of_nat i)); lia); auto.
Qed.

Lemma number_single : forall i, i < 31 -> single_bit (number true i).
Proof. intros i H. exists (Z.of_nat i). split; [lia|auto]. Qed.

Lemma number_int : forall (incl : bool) i, (Z.of_nat i < if incl then 31 else 2 ^ 31)%Z -> is_int (number incl i).
Proof.
  intros incl i H. pose proof (number_nonneg incl i). split; [lia|]. destruct incl; unfold number in *; [|lia].
  assert (2 ^ Z.of_nat i <= 2 ^ 30)%Z by (apply Z.pow_le_mono_r; lia). lia.
Qed.

Lemma add_values_spec : forall incl vs i t, cty_incl t = incl -> (Z.of_nat (i + List.length vs) <= 2 ^ 31)%Z ->
  (forall l w, In (l, w) (cty_map t) -> (w < number incl i)%Z) ->
  match add_values incl (Z.of_nat i) vs t with
  | Ok t' => cty_incl t' = incl /\ Permutation (cty_map t') (numbered incl i vs ++ cty_map t)
             /\ NoDup vs /\ (forall l, In l vs -> ~ In l (map fst (cty_map t))) /\ (incl = true -> vs <> [] -> i + List.length vs <= 31)
  | Err => ~ (NoDup vs /\ (forall l, In l vs -> ~ In l (map fst (cty_map t))) /\ (incl = true -> vs <> [] -> i + List.length vs <= 31))
  | _ => False
  end.
Proof.
  intros incl. induction vs as [|v vs IH]; intros i t It L Lo; cbn [add_values].
  - split; auto. split; [auto|]. split; [constructor|]. split; [intros l []|congruence].
  - rewrite max_shift by lia. destruct (incl && (31 <=? Z.of_nat i)%Z) eqn:Ov.
    { apply andb_true_iff in Ov. destruct Ov as [-> Ov]. apply Z.leb_le in Ov. intros [_ [_ H]]. specialize (H eq_refl ltac:(discriminate)). simpl in H. lia. }
    assert (Z.of_nat i < if incl then 31 else 2 ^ 31)%Z as Hi.
    { destruct incl; simpl in Ov; [apply Z.leb_gt in Ov; lia|]. simpl List.length in L. lia. }
    rewrite code_number by auto.
    pose proof (cty_add_spec t (number incl i) v (number_int incl i Hi)) as A.
    assert (cty_incl t = true -> number incl i <> - 2 ^ 31)%Z as Nm by (intros _; pose proof (number_nonneg incl i); lia). specialize (A Nm).
    destruct (cty_add t (number incl i) v) as [t'| | |] eqn:Ea; cbn [obind]; try contradiction.
    + destruct A as [_ [A2 [A3 [A4 A5]]]]. replace (Z.of_nat i + 1)%Z with (Z.of_nat (S i)) by lia.
      assert (cty_incl t' = incl) as It' by congruence.
      assert (forall l w, In (l, w) (cty_map t') -> (w < number incl (S i))%Z) as Lo'.
      { intros l w H. apply (Permutation_in _ A5) in H. destruct H as [H|H]; [inversion H; subst; apply number_lt; lia|].
        pose proof (Lo l w H). pose proof (number_lt incl i (S i) ltac:(lia)). lia. }
      specialize (IH (S i) t' It' ltac:(simpl List.length in L; lia) Lo'). 
      assert (forall l, In l (map fst (cty_map t')) <-> l = v \/ In l (map fst (cty_map t))) as Fs.
      { intros l. assert (Permutation (map fst (cty_map t')) (v :: map fst (cty_map t))) as P by (change (v :: map fst (cty_map t)) with (map fst ((v, number incl i) :: cty_map t)); apply Permutation_map; auto).
        split; intros H; [apply (Permutation_in _ P) in H|apply (Permutation_in _ (Permutation_sym P))]; simpl in *; intuition. }
      assert (~ In v (map fst (cty_map t))) as Nv by (intros H; apply in_map_iff in H; destruct H as [[l w] [E H]]; simpl in E; subst; apply (A2 w H)).
      destruct (add_values incl (Z.of_nat (S i)) vs t') as [t2| | |]; try contradiction.
      * destruct IH as [I1 [I2 [I3 [I4 I5]]]]. split; auto. split; [|split; [|split]].
        -- cbn [numbered app]. rewrite I2. rewrite A5. symmetry. apply Permutation_middle.
        -- constructor; auto. intros H. apply (I4 v H). apply Fs. auto.
        -- intros l [<-|H]; auto. intros C. apply (I4 l H). apply Fs. auto.
        -- intros E _. simpl. destruct vs as [|w vs]; [|specialize (I5 E ltac:(discriminate)); lia]. rewrite E in Hi. simpl. lia.
      * intros [N [D B]]. apply IH. inversion N; subst. split; auto. split; [|intros E Ne; specialize (B E ltac:(discriminate)); simpl in B; lia].
        intros l H C. apply Fs in C. destruct C as [->|C]; [contradiction|]. apply (D l); simpl; auto.
    + intros [N [D B]]. destruct A as [[A1 A2]|[[w A]|[l A]]].
      * apply A2. rewrite It in A1. subst incl. rewrite A1. apply number_single. rewrite A1 in Hi. lia.
      * apply (D v); [simpl; auto|]. apply in_map_iff. exists (v, w). auto.
      * specialize (Lo _ _ A). lia.
Qed.

(** The map of the names: each name with the position of its criterion. *)
Definition name_inv (names : list (str * nat)) (ks : list criterion) : Prop :=
  NoDup (map cr_name ks) /\ names = combine (map cr_name ks) (seq 0 (List.length ks)).

Lemma name_find_combine : forall l a n i, NoDup l -> (name_find n (combine l (seq a (List.length l))) = Some i <-> a <= i /\ nth_error l (i - a) = Some n).
Proof.
  induction l as [|x l IH]; intros a n i N; cbn [List.length seq combine name_find].
  - split; [discriminate|]. intros [_ H]. destruct (i - a); discriminate.
  - inversion N; subst. destruct (str_eqb x n) eqn:E.
    + apply str_eqb_eq in E. subst x. split.
      * intros H. inversion H; subst. rewrite Nat.sub_diag. auto.
      * intros [A B]. destruct (i - a) as [|j] eqn:D; [f_equal; lia|]. simpl in B. exfalso. apply H1. apply nth_error_In in B. auto.
    + apply str_eqb_neq in E. rewrite IH by auto. split; intros [A B].
      * split; [lia|]. replace (i - a) with (S (i - S a)) by lia. auto.
      * destruct (i - a) as [|j] eqn:D; [simpl in B; congruence|]. split; [lia|]. replace (i - S a) with j by lia. auto.
Qed.

Lemma name_inv_find : forall names ks n i, name_inv names ks -> (name_find n names = Some i <-> exists k, nth_error ks i = Some k /\ cr_name k = n).
Proof.
  intros names ks n i [N ->]. rewrite <- (map_length cr_name). rewrite (name_find_combine _ 0 n i N), Nat.sub_0_r. split.
  - intros [_ H]. rewrite nth_error_map in H. destruct (nth_error ks i) as [k|]; [|discriminate]. inversion H. eauto.
  - intros [k [H <-]]. split; [lia|]. rewrite nth_error_map, H. auto.
Qed.

Lemma name_inv_none : forall names ks n, name_inv names ks -> (name_find n names = None <-> ~ In n (map cr_name ks)).
Proof.
  intros names ks n H. split.
  - intros F I. apply In_nth_error in I. destruct I as [i I]. rewrite nth_error_map in I. destruct (nth_error ks i) as [k|] eqn:E; [|discriminate]. inversion I; subst.
    assert (name_find (cr_name k) names = Some i) as C by (apply (name_inv_find names ks); eauto). congruence.
  - intros I. destruct (name_find n names) as [i|] eqn:E; auto. exfalso. apply I. apply (name_inv_find names ks) in E; auto. destruct E as [k [E <-]]. apply in_map. apply nth_error_In in E. auto.
Qed.

Lemma name_inv_add : forall names ks n t, name_inv names ks -> name_find n names = None -> name_inv (names ++ [(n, List.length ks)]) (crits_create ks n t).
Proof.
  intros names ks n t H F. pose proof (proj1 (name_inv_none names ks n H) F) as I. destruct H as [N ->]. unfold crits_create. split.
  - rewrite map_app. cbn [map cr_name cr_new]. apply (Permutation_NoDup (Permutation_cons_append (map cr_name ks) n)). constructor; auto.
  - rewrite map_app, app_length, seq_app, Nat.add_0_l. cbn [map cr_name cr_new List.length seq].
    clear. rewrite <- (map_length cr_name ks). generalize (map cr_name ks) as l. intros l.
    assert (forall a, combine l (seq a (List.length l)) ++ [(n, a + List.length l)] = combine (l ++ [n]) (seq a (List.length l) ++ [a + List.length l])) as G; [|apply (G 0)].
    induction l as [|x l IH]; intros a; cbn [List.length seq combine app]; auto. f_equal. rewrite Nat.add_succ_r. apply (IH (S a)).
Qed.

Lemma create_inv : forall cs names ks ok names' ks', create_criteria cs names ks = Ok (ok, names', ks') -> name_inv names ks ->
  name_inv names' ks' /\ exists made, ks' = ks ++ made /\ Forall (fun k => cr_state k = 0%Z) made.
Proof.
  induction cs as [|c cs IH]; intros names ks ok names' ks' H N; cbn [create_criteria] in H.
  - inversion H; subst. split; auto. exists []. rewrite app_nil_r. auto.
  - assert (forall b, Ok (b, names, ks) = Ok (ok, names', ks') -> name_inv names' ks' /\ exists made, ks' = ks ++ made /\ Forall (fun k => cr_state k = 0%Z) made) as Q.
    { intros b E. inversion E; subst. split; auto. exists []. rewrite app_nil_r. auto. }
    destruct (cc_name c) as [n|]; [|eauto]. destruct (cc_values c) as [vs|]; [|eauto]. destruct (name_find n names) eqn:F; [eauto|].
    destruct (add_values (cc_incl c) 0 vs (cty_new (cc_incl c))) as [t| | |]; try discriminate; [|eauto].
    apply IH in H; [|apply name_inv_add; auto]. destruct H as [A [made [-> Z]]]. split; auto. exists (cr_new n t :: made). unfold crits_create. rewrite <- app_assoc. split; auto.
Qed.

Lemma described_new : forall c n vs, cc_name c = Some n -> cc_values c = Some vs -> (Z.of_nat (List.length vs) <= 2 ^ 31 - 1)%Z ->
  match add_values (cc_incl c) 0 vs (cty_new (cc_incl c)) with
  | Ok t => described c (cr_new n t) /\ NoDup (map fst (cty_map t)) /\ makeable c
  | Err => ~ makeable c
  | _ => False
  end.
Proof.
  intros c n vs Hn Hv L.
  assert (forall l w, In (l, w) (cty_map (cty_new (cc_incl c))) -> (w < number (cc_incl c) 0)%Z) as Lo.
  { intros l w H. unfold cty_new in H. destruct (cc_incl c); [|destruct H]. destruct H as [H|[]]. inversion H; subst. reflexivity. }
  pose proof (add_values_spec (cc_incl c) vs 0 (cty_new (cc_incl c)) eq_refl ltac:(rewrite Nat.add_0_l; lia) Lo) as A. change (Z.of_nat 0) with 0%Z in A.
  assert (forall l, In l (map fst (cty_map (cty_new (cc_incl c)))) <-> cc_incl c = true /\ l = lit "none") as Fs.
  { intros l. unfold cty_new. destruct (cc_incl c); cbn [cty_map map fst In]; split; try tauto; try (intros [? ?]; try discriminate); intuition. }
  destruct (add_values (cc_incl c) 0 vs (cty_new (cc_incl c))) as [t| | |]; try contradiction.
  - destruct A as [A1 [A2 [A3 [A4 A5]]]].
    assert (NoDup (map fst (cty_map t))) as Nd.
    { apply (Permutation_NoDup (l := map fst (numbered (cc_incl c) 0 vs ++ cty_map (cty_new (cc_incl c))))); [apply Permutation_map, Permutation_sym; auto|].
      rewrite map_app, numbered_fst. assert (NoDup (map fst (cty_map (cty_new (cc_incl c))))) as Nb by (unfold cty_new; destruct (cc_incl c); repeat constructor; simpl; tauto).
      clear -A3 A4 Nb. induction vs as [|v vs IH]; auto. cbn [app]. inversion A3; subst. constructor; [|apply IH; auto; intros l Hl; apply A4; simpl; auto].
      rewrite in_app_iff. intros [H|H]; [contradiction|]. apply (A4 v); simpl; auto. }
    split; [|split]; auto.
    + split; auto. split; auto. exists vs. split; auto. intros l v. unfold cty_atomic. cbn [cr_type cr_new].
      assert (map_find l (cty_map t) = Some v <-> In (l, v) (cty_map t)) as -> by (split; [apply map_find_Some|apply map_find_In; auto]).
      assert (In (l, v) (cty_map t) <-> In (l, v) (numbered (cc_incl c) 0 vs ++ cty_map (cty_new (cc_incl c)))) as ->
        by (split; intros H; [apply (Permutation_in _ A2)|apply (Permutation_in _ (Permutation_sym A2))]; auto).
      rewrite in_app_iff, numbered_In. unfold cty_new. split; intros [H|H]; auto; right.
      * destruct (cc_incl c); [|destruct H]. destruct H as [H|[]]. inversion H; subst. auto.
      * destruct H as [-> [-> ->]]. simpl. auto.
    + exists n, vs. split; auto. split; auto. split; auto. intros E. split.
      * destruct vs as [|v vs]; [simpl; lia|]. specialize (A5 E ltac:(discriminate)). exact A5.
      * intros H. apply (A4 _ H). apply Fs. auto.
  - intros [n' [vs' [_ [Hv' [N1 N2]]]]]. assert (vs' = vs) as -> by congruence. apply A. split; auto. split.
    + intros l H C. apply Fs in C. destruct C as [E ->]. apply N2 in E. tauto.
    + intros E _. apply N2 in E. simpl. lia.
Qed.

Lemma create_spec : forall cs names ks, countable cs -> name_inv names ks ->
  exists ok names' made, create_criteria cs names ks = Ok (ok, names', ks ++ made)
    /\ (ok = true <-> Forall makeable cs /\ NoDup (map cc_name cs) /\ forall c k, In c cs -> In k ks -> cc_name c <> Some (cr_name k))
    /\ (ok = true -> Forall2 described cs made) /\ crits_ok made /\ Forall (fun k => cr_state k = 0%Z) made.
Proof.
  induction cs as [|c cs IH]; intros names ks Co N; cbn [create_criteria].
  - exists true, names, []. rewrite app_nil_r. split; auto. split; [split; auto; intros _; repeat split; auto; constructor|]. split; auto. split; auto. intros i k H. destruct i; discriminate.
  - assert (~ makeable c \/ (exists n k, cc_name c = Some n /\ In k ks /\ n = cr_name k) ->
      exists ok names' made, Ok (false, names, ks) = Ok (ok, names', ks ++ made)
        /\ (ok = true <-> Forall makeable (c :: cs) /\ NoDup (map cc_name (c :: cs)) /\ forall c0 k, In c0 (c :: cs) -> In k ks -> cc_name c0 <> Some (cr_name k))
        /\ (ok = true -> Forall2 described (c :: cs) made) /\ crits_ok made /\ Forall (fun k => cr_state k = 0%Z) made) as Q.
    { intros B. exists false, names, []. rewrite app_nil_r. split; auto. split; [|split; [discriminate|split; auto; intros i k H; destruct i; discriminate]].
      split; [discriminate|]. intros [F [_ D]]. exfalso. inversion F; subst. destruct B as [B|[n [k [B1 [B2 ->]]]]]; [auto|]. apply (D c k); simpl; auto. }
    destruct (cc_name c) as [n|] eqn:Hn; [|apply Q; left; intros [n [vs [H _]]]; congruence].
    destruct (cc_values c) as [vs|] eqn:Hv; [|apply Q; left; intros [n' [vs [_ [H _]]]]; congruence].
    destruct (name_find n names) as [i|] eqn:F.
    { apply Q. right. apply (name_inv_find names ks) in F; auto. destruct F as [k [F E]]. exists n, k. split; auto. split; auto. apply nth_error_In in F. auto. }
    pose proof (described_new c n vs Hn Hv (Co c vs (or_introl eq_refl) Hv)) as A.
    destruct (add_values (cc_incl c) 0 vs (cty_new (cc_incl c))) as [t| | |]; try contradiction; [|apply Q; auto].
    destruct A as [A1 [A2 A3]].
    destruct (IH (names ++ [(n, List.length ks)]) (crits_create ks n t)) as [ok [names' [made [E [I1 [I2 [I3 I4]]]]]]].
    { intros x xs Hx. apply Co. simpl. auto. }
    { apply name_inv_add; auto. }
    exists ok, names', (cr_new n t :: made). rewrite E. unfold crits_create. rewrite <- app_assoc. split; auto.
    pose proof (proj1 (name_inv_none names ks n N) F) as Fr. split; [|split; [|split]].
    + rewrite I1. unfold crits_create. cbn [map]. rewrite Hn. split; intros [B1 [B2 B3]].
      * split; [constructor; auto|]. split.
        -- constructor; auto. intros C. apply in_map_iff in C. destruct C as [c' [C1 C2]]. apply (B3 c' (cr_new n t) C2); [apply in_or_app; right; simpl; auto|auto].
        -- intros c0 k [<-|H0] Hk; [rewrite Hn; intros X; inversion X; subst; apply Fr, in_map; auto|]. apply B3; auto. apply in_or_app. auto.
      * inversion B1; subst. inversion B2; subst. split; auto. split; auto. intros c0 k H0 Hk. apply in_app_or in Hk. destruct Hk as [Hk|[<-|[]]].
        -- apply B3; simpl; auto.
        -- cbn [cr_name cr_new]. intros X. apply H3. rewrite <- X. apply in_map. auto.
    + intros H. constructor; auto.
    + intros i k H. destruct i as [|i]; simpl in H; [inversion H; subst; auto|eapply I3; eauto].
    + constructor; auto.
Qed.

(** ** What the commands do to the criteria *)

Lemma apply_crits : forall y force need m m', do_apply y force need m = Ok m' -> mg_crits m' = crits_reset (mg_crits m).
Proof.
  intros y force need m m' H. unfold do_apply in H. destruct (ds_apply _ _ _ _ _ _ _) as [[[s bb] tr]| | |]; try discriminate. cbn [obind] in H. inversion H; subst. reflexivity.
Qed.

Definition kept_crits (m m' : mgr) : Prop := mg_crits m' = mg_crits m \/ mg_crits m' = crits_reset (mg_crits m).

Lemma step_view : forall y m c b m', step y m c = Ok (b, m') ->
  match c with CCriterion i v => mg_crits m' = crits_set (mg_crits m) i v | _ => kept_crits m m' end.
Proof.
  intros y m c b m' H. unfold kept_crits.
  assert (forall k b0 m0, tuned m k = Ok (b0, m0) -> (k = Ok (b0, m0) -> mg_crits m0 = mg_crits m) -> mg_crits m0 = mg_crits m \/ mg_crits m0 = crits_reset (mg_crits m)) as T.
  { intros k b0 m0 Hk G. destruct (tuned_inv _ _ _ _ Hk) as [[_ [_ ->]]|[_ E]]; auto. }
  assert (forall o b0 m0, on_doms m o = Ok (b0, m0) -> mg_crits m0 = mg_crits m) as D.
  { intros o b0 m0 Ho. destruct (on_doms_inv _ _ _ _ Ho) as [s [E ->]]. auto. }
  destruct c; cbn [step] in H; try (apply (T _ _ _ H); intros G; apply (D _ _ _ G)); try (left; apply (D _ _ _ H)).
  - apply (T _ _ _ H). intros G. apply set_live_inv in G. tauto.
  - left. unfold set_recorded in H. destruct (locate (sy_root y) path) as [p|]; [|inversion H; subst; auto].
    destruct (ds_find_blackboard dom conf p (mg_doms m)) as [[[d c] g]|]; [|inversion H; subst; auto].
    destruct (access_set _ _ _ _ _ _) as [[ok bb]| | |]; try discriminate. cbn [obind fst snd] in H.
    destruct (ds_edit dom conf g bb (mg_doms m)) as [[b1 s1]| | |] eqn:Ed; try discriminate. cbn [obind fst snd] in H.
    destruct ok; [|inversion H; subst; auto]. destruct (is_last d c); [|inversion H; subst; auto].
    apply set_live_inv in H. tauto.
  - unfold set_tuning in H. destruct (Bool.eqb on (mg_tuning m)); [inversion H; subst; auto|]. destruct (on && negb (mg_allowed m)); [inversion H; subst; auto|].
    destruct on; [inversion H; subst; auto|]. destruct (do_apply y true need m) as [m1| | |] eqn:Ea; try discriminate. cbn [obind] in H. inversion H; subst.
    right. apply apply_crits in Ea. auto.
  - left. unfold set_autosync, do_sync in H. destruct (on && negb (mg_autosync m)); [|inversion H; subst; auto].
    destruct (mg_autosync m); [inversion H; subst; auto|]. destruct (sync_set _ _ _ _) as [[ok er] tr]. destruct ok; inversion H; subst; auto.
  - left. unfold do_sync in H. destruct (mg_autosync m); [inversion H; subst; auto|]. destruct (sync_set _ _ _ _) as [[ok er] tr]. inversion H; subst; auto.
  - inversion H; subst; auto.
  - inversion H; subst; auto.
  - apply (T _ _ _ H). intros G. destruct (ds_restore _ _ _ _ _ _ _) as [[[[[b1 s1] bb] er] tr]| | |]; try discriminate. cbn [obind] in G. inversion G; auto.
  - apply (T _ _ _ H). intros G. unfold on_located in G. destruct (locate (sy_root y) path); [apply (D _ _ _ G)|inversion G; auto].
  - apply (T _ _ _ H). intros G. unfold on_located in G. destruct (locate (sy_root y) path); [apply (D _ _ _ G)|inversion G; auto].
  - apply (T _ _ _ H). intros G. unfold on_located in G. destruct (locate (sy_root y) path); [apply (D _ _ _ G)|inversion G; auto].
  - unfold apply_configurations in H. destruct (mg_tuning m); [inversion H; subst; auto|].
    destruct (do_apply y false need m) as [m1| | |] eqn:Ea; try discriminate. cbn [obind] in H. inversion H; subst. right. apply apply_crits in Ea. auto.
  - inversion H; subst. auto.
  - apply handle_set_keeps in H. tauto.
  - apply handle_bytes_keeps in H. tauto.
Qed.

Lemma set_names : forall cs i v, map cr_name (crits_set cs i v) = map cr_name cs.
Proof.
  induction cs as [|c cs IH]; intros i v; cbn [crits_set]; auto. destruct i; cbn [map]; [|rewrite IH; auto]. f_equal. unfold cr_set. destruct (_ =? _)%Z; auto.
Qed.

Lemma reset_names : forall cs, map cr_name (crits_reset cs) = map cr_name cs.
Proof. intros cs. unfold crits_reset. rewrite map_map. auto. Qed.

Lemma step_names : forall y m c b m', step y m c = Ok (b, m') -> map cr_name (mg_crits m') = map cr_name (mg_crits m).
Proof. intros y m c b m' H. apply step_view in H. destruct c; try (destruct H as [->| ->]; [|rewrite reset_names]; auto; fail). rewrite H. apply set_names. Qed.

Lemma name_inv_same : forall names ks ks', name_inv names ks -> map cr_name ks' = map cr_name ks -> name_inv names ks'.
Proof.
  intros names ks ks' [N E] H. assert (List.length ks' = List.length ks) as L by (rewrite <- (map_length cr_name ks'), H, map_length; auto). split; [rewrite H; auto|]. rewrite H, L. auto.
Qed.

Lemma start_up_crits : forall y given allowed cs s m, start_up y given allowed cs s = Ok m -> mg_crits m = crits_reset cs.
Proof.
  intros y given allowed cs s m H. unfold start_up, load in H. destruct (hw_back_sync y given cs s _) as [bb| | |]; try discriminate. cbn [obind] in H.
  destruct (ds_validate y bb s); try discriminate. cbn [obind] in H. apply apply_crits in H. auto.
Qed.

Lemma load_instance_crits : forall ks l i, load_instance ks l = Ok i -> map cr_name (mg_crits (in_mgr i)) = map cr_name ks /\ map cr_state (mg_crits (in_mgr i)) = map cr_state ks.
Proof.
  intros ks l i H. destruct l as [|y al s|y given al s server]; cbn [load_instance] in H; try (inversion H; subst; auto; fail).
  destruct (start_up y given al ks s) as [m| | |] eqn:E; try discriminate. cbn [obind] in H. inversion H; subst. cbn [in_mgr]. rewrite (start_up_crits _ _ _ _ _ _ E). split; [apply reset_names|].
  unfold crits_reset. rewrite map_map. auto.
Qed.

(** ** Handles *)

Definition handle_inv (h : chandle) : Prop :=
  match ch_pfw h with None => ch_names h = [] | Some i => name_inv (ch_names h) (mg_crits (in_mgr i)) end.

Lemma start_inv : forall f cs h b h', handle_inv h -> c_start f cs h = Ok (b, h') -> handle_inv h' /\ (ch_pfw h <> None -> b = false /\ h' = h) /\ ch_pfw h' <> None.
Proof.
  intros f cs h b h' I H. unfold c_start in H. unfold handle_inv in I. destruct (ch_pfw h) as [i|] eqn:E.
  - inversion H; subst. unfold handle_inv. rewrite E. split; auto. split; auto. discriminate.
  - rewrite I in H. destruct (create_criteria cs [] []) as [[[ok names] ks]| | |] eqn:C; try discriminate. cbn [obind] in H.
    destruct (load_instance ks (if ok then f ks else LNothing)) as [i| | |] eqn:L; try discriminate. cbn [obind] in H. inversion H; subst. unfold handle_inv. cbn [ch_pfw ch_names]. split; [|split; [tauto|discriminate]].
    apply create_inv in C; [|split; [constructor|auto]]. apply load_instance_crits in L. apply (name_inv_same names ks); tauto.
Qed.

Lemma c_step_inv : forall h i c a h', c_step h i c = Ok (a, h') -> exists b m', step (in_sys i) (in_mgr i) c = Ok (b, m') /\ a = status b /\ h' = with_mgr h i m'.
Proof. intros h i c a h' H. unfold c_step in H. destruct (step (in_sys i) (in_mgr i) c) as [[b m']| | |]; try discriminate. cbn [obind fst snd] in H. inversion H; subst. eauto. Qed.

Lemma c_read_inv : forall h i p k a h', c_read h i p k = Ok (a, h') -> h' = h.
Proof. intros h i p k a h' H. unfold c_read in H. destruct (handle_get _ _ _ _) as [[[]| | |]| | |]; try discriminate; inversion H; auto. Qed.

(** A call that is no start: on a handle with a framework, it does nothing or runs one command of the manager. *)
Lemma call_cases : forall h k a h', call h k = Ok (a, h') -> (forall f cs, k <> KStart f cs) ->
  h' = h \/ exists i c b m', ch_pfw h = Some i /\ step (in_sys i) (in_mgr i) c = Ok (b, m') /\ h' = with_mgr h i m'
    /\ match k with
       | KSetCriterion n v => exists j, name_find n (ch_names h) = Some j /\ c = CCriterion j v /\ a = ADone
       | KApply need => c = CApply need /\ a = ADone
       | KSetInt p v => c = CHandleSet p (HVal (UInt v)) /\ a = status b
       | KSetString p s => c = CHandleSet p (HStr s) /\ a = status b
       | KTune c' => c = c' /\ a = status b /\ tuning_command c = true /\ in_started i = true
       | _ => False
       end.
Proof.
  intros h k a h' H N. destruct k as [f cs|n v|n|need|path|p|p v|p|p s|c]; cbn [call] in H; try (exfalso; eapply N; reflexivity);
    (destruct (ch_pfw h) as [i|]; [|inversion H; auto]).
  - destruct (name_find n (ch_names h)) as [j|] eqn:F; [|inversion H; auto]. apply c_step_inv in H. destruct H as [b [m' [E [-> ->]]]]. right. exists i, (CCriterion j v), b, m'. repeat split; auto.
    exists j. repeat split; auto. cbn [step] in E. inversion E; auto.
  - destruct (name_find n (ch_names h)) as [j|]; [|inversion H; auto]. destruct (nth_error _ _); [|discriminate]. inversion H; auto.
  - apply c_step_inv in H. destruct H as [b [m' [E [-> ->]]]]. right. exists i, (CApply need), b, m'. repeat split; auto. cbn [step] in E. destruct (apply_configurations _ _ _); try discriminate. cbn [obind] in E. inversion E; auto.
  - destruct (parameter_handle _ _); inversion H; auto.
  - apply c_read_inv in H. auto.
  - apply c_step_inv in H. destruct H as [b [m' [E [-> ->]]]]. right. exists i, (CHandleSet p (HVal (UInt v))), b, m'. repeat split; auto.
  - apply c_read_inv in H. auto.
  - apply c_step_inv in H. destruct H as [b [m' [E [-> ->]]]]. right. exists i, (CHandleSet p (HStr s)), b, m'. repeat split; auto.
  - destruct (in_started i && tuning_command c) eqn:Tc; [|inversion H; auto]. apply andb_true_iff in Tc. apply c_step_inv in H. destruct H as [b [m' [E [-> ->]]]]. right. exists i, c, b, m'. repeat split; tauto.
Qed.

Lemma call_inv : forall h k a h', handle_inv h -> call h k = Ok (a, h') -> handle_inv h'.
Proof.
  intros h k a h' I H. destruct k as [f cs|n v|n|need|path|p|p v|p|p s|c].
  1: { cbn [call] in H. destruct (c_start f cs h) as [[b h1]| | |] eqn:E; try discriminate. cbn [obind fst snd] in H. inversion H; subst. apply (start_inv _ _ _ _ _ I E). }
  all: destruct (call_cases _ _ _ _ H ltac:(discriminate)) as [->|[i [c0 [b [m' [E [Es [-> _]]]]]]]]; auto;
    unfold handle_inv in *; rewrite E in I; cbn [ch_pfw with_mgr ch_names in_mgr]; apply (name_inv_same _ (mg_crits (in_mgr i))); auto; apply (step_names _ _ _ _ _ Es).
Qed.

Lemma calls_inv : forall ks h answers h', handle_inv h -> calls h ks = Ok (answers, h') -> handle_inv h'.
Proof.
  induction ks as [|k ks IH]; intros h answers h' I H; cbn [calls] in H; [inversion H; subst; auto|].
  destruct (call h k) as [[a h1]| | |] eqn:E; try discriminate. cbn [obind fst snd] in H. destruct (calls h1 ks) as [[l h2]| | |] eqn:C; try discriminate. cbn [obind fst snd] in H. inversion H; subst.
  apply (IH h1 l h'); auto. apply (call_inv _ _ _ _ I E).
Qed.

Lemma obtainable_inv : forall h, obtainable h -> handle_inv h.
Proof. intros h [ks [answers H]]. apply (calls_inv _ _ _ _ (eq_refl : handle_inv c_new) H). Qed.

Lemma calls_app : forall ks1 ks2 h, calls h (ks1 ++ ks2) = do x <- calls h ks1; do z <- calls (snd x) ks2; Ok (fst x ++ fst z, snd z).
Proof.
  induction ks1 as [|k ks1 IH]; intros ks2 h; cbn [app calls obind fst snd].
  - destruct (calls h ks2) as [[]| | |]; auto.
  - destruct (call h k) as [[a h1]| | |]; cbn [obind fst snd]; auto. rewrite IH. destruct (calls h1 ks1) as [[l h2]| | |]; cbn [obind fst snd]; auto. destruct (calls h2 ks2) as [[]| | |]; auto.
Qed.

(** ** The value of a criterion *)

(** The state of the criterion of this name. *)
Definition holds_state (n : str) (v : Z) (h : chandle) : Prop :=
  exists i j k, ch_pfw h = Some i /\ name_find n (ch_names h) = Some j /\ nth_error (mg_crits (in_mgr i)) j = Some k /\ cr_state k = v.

Lemma holds_get : forall n v h, holds_state n v h -> call h (KGetCriterion n) = Ok (AInt v, h).
Proof. intros n v h [i [j [k [A [B [C <-]]]]]]. cbn [call]. rewrite A, B, C. auto. Qed.

Lemma reset_state_nth : forall cs j k, nth_error cs j = Some k -> exists k', nth_error (crits_reset cs) j = Some k' /\ cr_state k' = cr_state k.
Proof. intros cs j k H. unfold crits_reset. rewrite nth_error_map, H. eexists. split; reflexivity. Qed.

Lemma call_keeps_state : forall h k a h' n v, handle_inv h -> call h k = Ok (a, h') -> ~ sets_criterion n k -> holds_state n v h -> holds_state n v h'.
Proof.
  intros h k a h' n v I H N [i [j [c [A [B [C <-]]]]]].
  destruct k as [f cs|n' v'|n'|need|path|p|p v'|p|p s|c'].
  1: { cbn [call] in H. destruct (c_start f cs h) as [[b h1]| | |] eqn:E; try discriminate. cbn [obind fst snd] in H. inversion H; subst. apply (start_inv _ _ _ _ _ I) in E. destruct E as [_ [E _]]. destruct E as [_ ->]; [congruence|]. exists i, j, c. auto. }
  all: destruct (call_cases _ _ _ _ H ltac:(discriminate)) as [->|[i0 [c0 [b [m' [E [Es [-> X]]]]]]]]; [exists i, j, c; auto|]; rewrite A in E; inversion E; subst i0; clear E;
    apply step_view in Es; try contradiction.
  1: { destruct X as [j' [X1 [-> _]]]. cbn [sets_criterion] in N. unfold holds_state. cbn [ch_pfw with_mgr ch_names]. exists (Inst (in_sys i) m' (in_started i)), j. cbn [in_mgr]. rewrite Es.
       assert (j' <> j) as D.
       { intros ->. apply N. unfold handle_inv in I. rewrite A in I. apply (name_inv_find _ _ _ _ I) in X1. apply (name_inv_find _ _ _ _ I) in B. destruct X1 as [k1 [X1 <-]], B as [k2 [B <-]]. congruence. }
       rewrite CriterionProofs.crits_set_nth. rewrite (proj2 (Nat.eqb_neq j' j)) by auto. eauto. }
  all: assert (kept_crits (in_mgr i) m') as K by (repeat match goal with X : _ /\ _ |- _ => destruct X | X : exists _, _ |- _ => destruct X end; subst; try (match goal with T : tuning_command ?c = true |- _ => destruct c; try discriminate T end); exact Es).
  all: unfold holds_state; cbn [ch_pfw with_mgr ch_names]; exists (Inst (in_sys i) m' (in_started i)), j; cbn [in_mgr]; destruct K as [->| ->]; [eauto|];
    destruct (reset_state_nth _ _ _ C) as [k' [K1 K2]]; exists k'; auto.
Qed.

Lemma calls_keep_state : forall ks h answers h' n v, handle_inv h -> calls h ks = Ok (answers, h') -> Forall (fun k => ~ sets_criterion n k) ks -> holds_state n v h -> holds_state n v h'.
Proof.
  induction ks as [|k ks IH]; intros h answers h' n v I H N S; cbn [calls] in H; [inversion H; subst; auto|].
  destruct (call h k) as [[a h1]| | |] eqn:E; try discriminate. cbn [obind fst snd] in H. destruct (calls h1 ks) as [[l h2]| | |] eqn:C; try discriminate. cbn [obind fst snd] in H. inversion H; subst. inversion N; subst.
  apply (IH h1 l h'); auto; [apply (call_inv _ _ _ _ I E)|]. apply (call_keeps_state _ _ _ _ _ _ I E); auto.
Qed.

Lemma set_holds : forall h n v a h', handle_inv h -> call h (KSetCriterion n v) = Ok (a, h') -> a = ADone -> holds_state n v h'.
Proof.
  intros h n v a h' I H ->. unfold handle_inv in I. cbn [call] in H. destruct (ch_pfw h) as [i|] eqn:A; [|discriminate]. destruct (name_find n (ch_names h)) as [j|] eqn:B; [|discriminate].
  apply c_step_inv in H. destruct H as [b [m' [E [_ ->]]]]. cbn [step] in E. inversion E; subst. pose proof (proj1 (name_inv_find _ _ _ _ I) B) as [k [K _]].
  exists (Inst (in_sys i) (with_crits (in_mgr i) (crits_set (mg_crits (in_mgr i)) j v)) (in_started i)), j, (cr_set k v). split; auto. split; auto. cbn [in_mgr mg_crits with_crits].
  rewrite CriterionProofs.crits_set_nth, Nat.eqb_refl, K. split; auto. apply cr_set_state.
Qed.

(** ** Calls that change no parameter *)

Lemma reads_same : forall h k a h', call h k = Ok (a, h') -> reads k ->
  h' = h \/ exists i cs, ch_pfw h = Some i /\ h' = with_mgr h i (with_crits (in_mgr i) cs).
Proof.
  intros h k a h' H R. destruct k as [f cs|n v|n|need|path|p|p v|p|p s|c]; try contradiction;
    (destruct (call_cases _ _ _ _ H ltac:(discriminate)) as [->|[i [c0 [b [m' [E [Es [-> X]]]]]]]]; [auto|]); try contradiction.
  right. exists i. destruct X as [j [_ [-> _]]]. cbn [step] in Es. inversion Es; subst. eauto.
Qed.
