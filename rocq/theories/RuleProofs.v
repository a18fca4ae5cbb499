(** Proofs about application rules. *)
From Coq Require Import List Arith ZArith Bool Ascii String Lia ZifyBool.
From Verif Require Import Base BaseProofs TextModel TextSpec TextProofs CriterionModel CriterionSpec CriterionProofs
  RuleModel RuleSpec.
Import ListNotations.
Open Scope Z_scope.

Section RuleInd.
  Variable P : rule -> Prop.
  Hypothesis Hcrit : forall c w v, P (RCrit c w v).
  Hypothesis Hcomp : forall all l, (forall r, In r l -> P r) -> P (RComp all l).
  Fixpoint rule_ind2 (r : rule) : P r :=
    match r with
    | RCrit c w v => Hcrit c w v
    | RComp all l =>
        Hcomp all l ((fix go (l : list rule) : forall r, In r l -> P r :=
           match l with
           | [] => fun r H => match H with end
           | x :: l' => fun r H => match H with
                                   | or_introl E => eq_ind x P (rule_ind2 x) r E
                                   | or_intror H' => go l' r H'
                                   end
           end) l)
    end.
End RuleInd.

(** ** Meaning *)

Lemma land_sub : forall s v, Z.land s v = v <-> (forall i, 0 <= i -> Z.testbit v i = true -> Z.testbit s i = true).
Proof.
  intros s v. split.
  - intros H i Hi Hb. rewrite <- H, Z.land_spec in Hb. apply andb_true_iff in Hb. tauto.
  - intros H. apply Z.bits_inj'. intros i Hi. rewrite Z.land_spec. specialize (H i Hi).
    destruct (Z.testbit v i); [rewrite H; auto|apply andb_false_r].
Qed.

Lemma land_disj : forall s v, Z.land s v = 0 <-> (forall i, 0 <= i -> Z.testbit v i = true -> Z.testbit s i = false).
Proof.
  intros s v. split.
  - intros H i Hi Hb. assert (Z.testbit (Z.land s v) i = false) as K by (rewrite H; apply Z.bits_0).
    rewrite Z.land_spec, Hb, andb_true_r in K. auto.
  - intros H. apply Z.bits_inj'. intros i Hi. rewrite Z.land_spec, Z.bits_0. specialize (H i Hi).
    destruct (Z.testbit v i); [rewrite H; auto|apply andb_false_r].
Qed.

Lemma crit_matches_spec : forall cs c w v k, nth_error cs c = Some k ->
  (crit_matches cs c w v = true <-> verb_holds w (cr_state k) v).
Proof.
  intros cs c w v k H. unfold crit_matches. rewrite H.
  destruct w; simpl; unfold cr_is, cr_isnot, cr_includes, cr_excludes.
  - apply Z.eqb_eq.
  - rewrite negb_true_iff. apply Z.eqb_neq.
  - rewrite Z.eqb_eq. apply land_sub.
  - rewrite Z.eqb_eq. apply land_disj.
Qed.

Lemma rule_matches_spec : forall cs state r,
  in_scope cs r -> (forall i k, nth_error cs i = Some k -> state i = cr_state k) ->
  (rule_matches cs r = true <-> holds state r).
Proof.
  intros cs state r Hs Hst. induction r as [c w v|all l IH] using rule_ind2.
  - inversion Hs as [? ? ? Hc|]; subst. apply nth_error_Some in Hc.
    destruct (nth_error cs c) as [k|] eqn:E; [|congruence]. cbn [rule_matches].
    rewrite (crit_matches_spec cs c w v k) by auto. rewrite <- (Hst c k) by auto.
    split; [constructor; auto|]. intros H. inversion H; auto.
  - inversion Hs as [|? ? Hl]; subst. cbn [rule_matches].
    assert (forall r, In r l -> (rule_matches cs r = true <-> holds state r)) as IH'.
    { intros r Hr. apply IH; auto. }
    clear IH Hl Hs. destruct all.
    + transitivity (forall r, In r l -> holds state r).
      2: { split; [constructor; auto|]. intros H. inversion H; auto. }
      induction l as [|x l IHl]; [split; auto; intros _ r []|].
      assert (rule_matches cs x = true <-> holds state x) as Hx by (apply IH'; simpl; auto).
      destruct (rule_matches cs x) eqn:E; cbn [xorb negb].
      * rewrite IHl by (intros; apply IH'; simpl; auto). split.
        { intros H r [<-|Hr]; [tauto|auto]. }
        { intros H r Hr. apply H. simpl; auto. }
      * split; [discriminate|]. intros H. apply Hx. apply H. simpl; auto.
    + transitivity (exists r, In r l /\ holds state r).
      2: { split; [intros [r [H1 H2]]; econstructor; eauto|]. intros H. inversion H; eauto. }
      induction l as [|x l IHl]; [split; [discriminate|intros [r [[] _]]]|].
      assert (rule_matches cs x = true <-> holds state x) as Hx by (apply IH'; simpl; auto).
      destruct (rule_matches cs x) eqn:E; cbn [xorb negb].
      * split; auto. intros _. exists x. split; [simpl; auto|tauto].
      * rewrite IHl by (intros; apply IH'; simpl; auto). split.
        { intros [r [H1 H2]]. exists r. simpl; auto. }
        { intros [r [[<-|H1] H2]]; [exfalso; apply Hx in H2; discriminate|eauto]. }
Qed.

Lemma applicable_spec : forall cs state r,
  (forall r', r = Some r' -> in_scope cs r') -> (forall i k, nth_error cs i = Some k -> state i = cr_state k) ->
  (is_applicable cs r = true <-> exists r', r = Some r' /\ holds state r').
Proof.
  intros cs state r Hs Hst. destruct r as [r|]; simpl.
  - rewrite (rule_matches_spec cs state r) by auto. split; [eauto|]. intros [r' [E H]]. inversion E; subst. auto.
  - split; [discriminate|]. intros [r' [E _]]. discriminate.
Qed.

(** Evaluation depends on nothing but the states of the criteria named by the rule. *)
Inductive mentions (i : nat) : rule -> Prop :=
| men_crit : forall w v, mentions i (RCrit i w v)
| men_comp : forall all l r, In r l -> mentions i r -> mentions i (RComp all l).

Lemma rule_matches_ext : forall cs cs' r,
  (forall i, mentions i r -> option_map cr_state (nth_error cs i) = option_map cr_state (nth_error cs' i)) ->
  rule_matches cs r = rule_matches cs' r.
Proof.
  intros cs cs' r. induction r as [c w v|all l IH] using rule_ind2; intros H.
  - specialize (H c (men_crit c w v)). cbn [rule_matches]. unfold crit_matches.
    destruct (nth_error cs c) as [k|], (nth_error cs' c) as [k'|]; try discriminate; auto.
    simpl in H. inversion H as [E]. destruct w; unfold cr_is, cr_isnot, cr_includes, cr_excludes; rewrite E; auto.
  - cbn [rule_matches].
    assert (forall r, In r l -> rule_matches cs r = rule_matches cs' r) as K.
    { intros r Hr. apply IH; auto. intros i Hi. apply H. econstructor; eauto. }
    clear IH H. induction l as [|x l IHl]; auto. rewrite (K x) by (simpl; auto).
    rewrite IHl by (intros; apply K; simpl; auto). reflexivity.
Qed.

(** ** Scanning *)

Lemma drop_spaces_length : forall s, (List.length (drop_spaces s) <= List.length s)%nat.
Proof. induction s as [|c s IH]; simpl; auto. destruct (char_eqb c " "); simpl; lia. Qed.

Lemma consume_spaces_length : forall s, (List.length (consume_spaces s) <= List.length s)%nat.
Proof.
  intros s. unfold consume_spaces. pose proof (drop_spaces_length s).
  destruct (drop_spaces s); auto.
Qed.

Lemma drop_spaces_suffix : forall s, exists a, s = a ++ drop_spaces s.
Proof.
  induction s as [|c s [a IH]]; simpl; [exists []; auto|]. destruct (char_eqb c " ").
  - exists (c :: a). simpl. congruence.
  - exists []. auto.
Qed.

Lemma consume_spaces_suffix : forall s, exists a, s = a ++ consume_spaces s.
Proof.
  intros s. unfold consume_spaces. destruct (drop_spaces_suffix s) as [a Ha].
  destruct (drop_spaces s) as [|c r] eqn:E; [exists []; auto|exists a; auto].
Qed.

Lemma find_first_of_Some : forall cs s a d b, find_first_of cs s = Some (a, d, b) ->
  s = a ++ d :: b /\ In d cs /\ free_of cs a.
Proof.
  intros cs s. induction s as [|c s IH]; intros a d b H; [discriminate|].
  cbn [find_first_of] in H. destruct (in_chars cs c) eqn:E.
  - inversion H; subst. split; auto. split; [apply in_chars_In; auto|]. intros x [].
  - destruct (find_first_of cs s) as [[[a' d'] b']|] eqn:E'; [|discriminate].
    inversion H; subst. destruct (IH _ _ _ eq_refl) as [-> [H2 H3]]. split; auto. split; auto.
    intros x [<-|Hx]; [apply in_chars_false; auto|apply H3; auto].
Qed.

Lemma find_first_of_app : forall cs a d b, free_of cs a -> In d cs -> find_first_of cs (a ++ d :: b) = Some (a, d, b).
Proof.
  intros cs a d b Ha Hd. induction a as [|c a IH]; simpl.
  - apply in_chars_In in Hd. rewrite Hd. auto.
  - assert (in_chars cs c = false) as -> by (apply in_chars_false, Ha; simpl; auto).
    rewrite IH; auto. intros x Hx. apply Ha. simpl; auto.
Qed.

Lemma spaces_drop : forall g s, spaces g -> drop_spaces (g ++ s) = drop_spaces s.
Proof.
  induction g as [|c g IH]; intros s H; simpl; auto.
  rewrite (H c) by (simpl; auto). change (char_eqb " " " ") with true.
  apply IH. intros x Hx. apply H. simpl; auto.
Qed.

Lemma consume_spaces_to : forall g c s, spaces g -> c <> " "%char -> consume_spaces (g ++ c :: s) = c :: s.
Proof.
  intros g c s Hg Hc. unfold consume_spaces. rewrite spaces_drop by auto. simpl.
  apply char_eqb_neq in Hc. rewrite Hc. auto.
Qed.

Lemma spaces_app : forall a b, spaces (a ++ b) <-> spaces a /\ spaces b.
Proof.
  intros a b. unfold spaces. split.
  - intros H. split; intros c Hc; apply H, in_or_app; auto.
  - intros [H1 H2] c Hc. apply in_app_or in Hc. destruct Hc; auto.
Qed.

(** ** Termination of the parser *)

Lemma iterate_Ok : forall p p1, iterate p = Ok p1 ->
  (ps_status p1 = SDone /\ ps_deep p = O)
  \/ ((List.length (ps_rest p1) < List.length (ps_rest p))%nat /\ ps_status p1 <> SDone /\ ps_status p1 <> SInit).
Proof.
  intros p p1 H. unfold iterate in H. pose proof (consume_spaces_length (ps_rest p)) as L.
  destruct (find_first_of (delimiters (ps_status p)) (consume_spaces (ps_rest p))) as [[[a d] b]|] eqn:E.
  - apply find_first_of_Some in E. destruct E as [E _].
    assert (List.length b < List.length (ps_rest p))%nat.
    { rewrite E, app_length in L. simpl in L. lia. }
    right. destruct (char_eqb d "{"); [inversion H; subst; simpl; split; [auto|split; discriminate]|].
    destruct (char_eqb d "}").
    + destruct (ps_deep p); inversion H; subst; simpl; split; [auto|split; discriminate].
    + destruct (char_eqb d " "); inversion H; subst; simpl; (split; [auto|split; discriminate]).
  - destruct (ps_deep p); [|discriminate]. destruct (consume_spaces (ps_rest p)); inversion H; subst. left; auto.
Qed.

Lemma iterate_not_UB : forall p, iterate p <> UB /\ iterate p <> Abort.
Proof.
  intros p. unfold iterate.
  destruct (find_first_of (delimiters (ps_status p)) (consume_spaces (ps_rest p))) as [[[a d] b]|].
  - destruct (char_eqb d "{"); [split; discriminate|]. destruct (char_eqb d "}").
    + destruct (ps_deep p); split; discriminate.
    + destruct (char_eqb d " "); split; discriminate.
  - destruct (ps_deep p); [|split; discriminate]. destruct (consume_spaces (ps_rest p)); split; discriminate.
Qed.

Lemma next_word_Ok : forall p w p1, next_word p = Ok (w, p1) ->
  (exists a, ps_rest p = a ++ ps_rest p1) /\ (List.length (ps_rest p1) <= List.length (ps_rest p))%nat
  /\ ps_status p1 = ps_status p /\ ps_type p1 = ps_type p /\ ps_deep p1 = ps_deep p.
Proof.
  intros p w p1 H. unfold next_word in H. pose proof (consume_spaces_length (ps_rest p)) as L.
  destruct (find_first_of (lit "{} ,") (consume_spaces (ps_rest p))) as [[[a d] b]|] eqn:E; [|discriminate].
  apply find_first_of_Some in E. destruct E as [E _]. inversion H; subst. simpl.
  destruct (consume_spaces_suffix (ps_rest p)) as [g Hg]. rewrite E, app_length in L. simpl in L.
  split; [|repeat split; auto; lia]. exists (g ++ w). rewrite Hg at 1. rewrite E, app_assoc. reflexivity.
Qed.

Lemma crit_parse_Ok : forall cs p r p2, crit_parse cs p = Ok (r, p2) ->
  (exists a, ps_rest p = a ++ ps_rest p2) /\ (List.length (ps_rest p2) <= List.length (ps_rest p))%nat
  /\ ps_status p2 = ps_status p /\ ps_deep p2 = ps_deep p
  /\ exists i k w v vtext, r = RCrit i w v /\ crits_find cs (ps_type p) = Some i /\ nth_error cs i = Some k
       /\ (cty_incl (cr_type k) = true \/ w = VIs \/ w = VIsNot) /\ cty_numerical (cr_type k) vtext = Some v.
Proof.
  intros cs p r p2 H. unfold crit_parse in H.
  destruct (crits_find cs (ps_type p)) as [i|] eqn:E1; [|discriminate].
  destruct (nth_error cs i) as [k|] eqn:E2; [|discriminate].
  destruct (next_word p) as [[vt p1]| | |] eqn:E3; try discriminate. cbn [obind] in H.
  destruct (next_word p1) as [[vl p3]| | |] eqn:E4; try discriminate. cbn [obind] in H.
  destruct (set_matches_when (cr_type k) vt) as [w|] eqn:E5; [|discriminate].
  destruct (cty_numerical (cr_type k) vl) as [v|] eqn:E6; [|discriminate].
  inversion H; subst p3 r. apply next_word_Ok in E3. apply next_word_Ok in E4.
  destruct E3 as [[a3 A3] [B3 [C3 [D3 F3]]]]. destruct E4 as [[a4 A4] [B4 [C4 [D4 F4]]]].
  split; [exists (a3 ++ a4); rewrite A3, A4, app_assoc; auto|].
  split; [lia|]. split; [congruence|]. split; [congruence|].
  exists i, k, w, v, vl. repeat split; auto.
  unfold set_matches_when in E5. destruct (find _ all_verbs) as [w'|]; [|discriminate].
  destruct (cty_incl (cr_type k)); auto. right. destruct w'; simpl in E5; inversion E5; auto.
Qed.

Lemma crit_parse_not_UB : forall cs p, crit_parse cs p <> UB /\ crit_parse cs p <> Abort.
Proof.
  intros cs p. unfold crit_parse. destruct (crits_find cs (ps_type p)) as [i|]; [|split; discriminate].
  destruct (nth_error cs i) as [k|]; [|split; discriminate].
  assert (forall q, next_word q <> UB /\ next_word q <> Abort) as N.
  { intros q. unfold next_word. destruct (find_first_of _ _) as [[[? ?] ?]|]; split; discriminate. }
  pose proof (N p). destruct (next_word p) as [[vt p1]| | |]; cbn [obind]; try tauto; try (split; discriminate).
  pose proof (N p1). destruct (next_word p1) as [[vl p3]| | |]; cbn [obind]; try tauto; try (split; discriminate).
  destruct (set_matches_when (cr_type k) vt); [|split; discriminate].
  destruct (cty_numerical (cr_type k) vl); split; discriminate.
Qed.

Lemma parse_shrinks : forall fuel cs p top acc p2 l, parse fuel cs p top acc = Ok (p2, l) ->
  (List.length (ps_rest p2) <= List.length (ps_rest p))%nat.
Proof.
  induction fuel as [|fuel IH]; intros cs p top acc p2 l H; [discriminate|]. cbn [parse] in H.
  destruct (iterate p) as [p1| | |] eqn:E; try discriminate. cbn [obind] in H.
  assert (List.length (ps_rest p1) <= List.length (ps_rest p))%nat as L1.
  { pose proof (iterate_Ok p p1 E) as [[K Kd]|K]; [|lia].
    unfold iterate in E. destruct (find_first_of _ _) as [[[a d] b]|] eqn:F.
    - destruct (char_eqb d "{"); [inversion E; subst; discriminate|].
      rewrite Kd in E. destruct (char_eqb d "}"); [discriminate|].
      destruct (char_eqb d " "); inversion E; subst; discriminate.
    - rewrite Kd in E. pose proof (consume_spaces_length (ps_rest p)).
      destruct (consume_spaces (ps_rest p)); inversion E; subst; simpl; lia. }
  destruct (ps_status p1).
  - discriminate.
  - destruct (comp_parse (ps_type p1)); [|discriminate].
    destruct (parse fuel cs p1 false []) as [[p3 kids]| | |] eqn:E2; try discriminate. cbn [obind] in H.
    apply IH in E2. apply IH in H. lia.
  - inversion H; subst. auto.
  - destruct (crit_parse cs p1) as [[r p3]| | |] eqn:E2; try discriminate. cbn [obind] in H.
    destruct top; [discriminate|]. apply IH in H. apply crit_parse_Ok in E2. lia.
  - apply IH in H. lia.
  - destruct acc; [destruct top; [discriminate|]|]; inversion H; subst; auto.
Qed.

Lemma parse_not_UB : forall fuel cs p top acc, (List.length (ps_rest p) < fuel)%nat ->
  parse fuel cs p top acc <> UB.
Proof.
  induction fuel as [|fuel IH]; intros cs p top acc L; [lia|]. cbn [parse].
  pose proof (iterate_not_UB p) as [N1 _].
  destruct (iterate p) as [p1| | |] eqn:E; try discriminate; [|tauto]. cbn [obind].
  pose proof (iterate_Ok p p1 E) as [[K Kd]|[K [K1 K2]]].
  - rewrite K. destruct acc; [destruct top|]; discriminate.
  - destruct (ps_status p1); try congruence; try discriminate.
    + destruct (comp_parse (ps_type p1)); [|discriminate].
      pose proof (IH cs p1 false [] ltac:(lia)) as N2.
      destruct (parse fuel cs p1 false []) as [[p3 kids]| | |] eqn:E2; try discriminate; [|tauto].
      cbn [obind]. apply parse_shrinks in E2. apply IH. lia.
    + pose proof (crit_parse_not_UB cs p1) as [N2 _].
      destruct (crit_parse cs p1) as [[r p3]| | |] eqn:E2; try discriminate; [|tauto]. cbn [obind].
      destruct top; [discriminate|]. apply crit_parse_Ok in E2. apply IH. lia.
    + apply IH. lia.
Qed.

Lemma parse_text_not_UB : forall cs s, parse_text cs s <> UB.
Proof.
  intros cs s. unfold parse_text.
  pose proof (parse_not_UB (S (List.length s)) cs (PState s SInit [] 0) true [] ltac:(simpl; lia)) as N.
  destruct (parse (S (List.length s)) cs (PState s SInit [] 0) true []) as [[p l]| | |]; try discriminate; [|tauto].
  cbn [obind snd]. destruct l; discriminate.
Qed.

Lemma parse_mono : forall fuel cs p top acc o, parse fuel cs p top acc = o -> o <> UB ->
  forall fuel', (fuel <= fuel')%nat -> parse fuel' cs p top acc = o.
Proof.
  induction fuel as [|fuel IH]; intros cs p top acc o H Ho fuel' Hf; [simpl in H; congruence|].
  destruct fuel' as [|fuel']; [lia|]. cbn [parse] in *.
  destruct (iterate p) as [p1| | |]; auto. cbn [obind] in *.
  destruct (ps_status p1); auto.
  - destruct (comp_parse (ps_type p1)); auto.
    destruct (parse fuel cs p1 false []) as [[p3 kids]| | |] eqn:E2; cbn [obind] in H.
    + rewrite (IH _ _ _ _ _ E2) by (try discriminate; lia). cbn [obind]. apply IH; auto; lia.
    + rewrite (IH _ _ _ _ _ E2) by (try discriminate; lia). auto.
    + rewrite (IH _ _ _ _ _ E2) by (try discriminate; lia). auto.
    + congruence.
  - destruct (crit_parse cs p1) as [[r p3]| | |]; auto. cbn [obind] in *.
    destruct top; auto. apply IH; auto; lia.
  - apply IH; auto; lia.
Qed.

(** ** What the parser accepts *)

Lemma parse_legal : forall fuel cs p top acc p2 l,
  (forall i k, nth_error cs i = Some k -> NoDup (map fst (cty_map (cr_type k)))) ->
  (forall r, In r acc -> legal cs r) ->
  parse fuel cs p top acc = Ok (p2, l) -> forall r, In r l -> legal cs r.
Proof.
  induction fuel as [|fuel IH]; intros cs p top acc p2 l Hn Ha H; [discriminate|]. cbn [parse] in H.
  destruct (iterate p) as [p1| | |] eqn:E; try discriminate. cbn [obind] in H.
  destruct (ps_status p1).
  - discriminate.
  - destruct (comp_parse (ps_type p1)) as [all|]; [|discriminate].
    destruct (parse fuel cs p1 false []) as [[p3 kids]| | |] eqn:E2; try discriminate. cbn [obind] in H.
    assert (forall r, In r kids -> legal cs r) as Hk.
    { apply (IH cs p1 false [] p3 kids); auto. intros r []. }
    apply (fun A => IH _ _ _ _ _ _ Hn A H). intros r Hr. destruct top.
    + destruct Hr as [<-|[]]. constructor. auto.
    + apply in_app_or in Hr. destruct Hr as [Hr|[<-|[]]]; auto. constructor. auto.
  - inversion H; subst. auto.
  - destruct (crit_parse cs p1) as [[r p3]| | |] eqn:E2; try discriminate. cbn [obind] in H.
    destruct top; [discriminate|]. apply (fun A => IH _ _ _ _ _ _ Hn A H). intros r' Hr.
    apply in_app_or in Hr. destruct Hr as [Hr|[<-|[]]]; auto.
    apply crit_parse_Ok in E2. destruct E2 as [_ [_ [_ [_ [i [k [w [v [vt [-> [_ [Hk [Hw Hv]]]]]]]]]]]]].
    apply cty_numerical_spec in Hv; [|eauto]. econstructor; eauto.
  - eapply IH; eauto.
  - destruct acc; [destruct top; [discriminate|]|]; inversion H; subst; auto.
Qed.

Lemma parse_top_shape : forall fuel cs p acc p2 l,
  (forall r, In r acc -> exists all k, r = RComp all k) -> (List.length acc <= 1)%nat ->
  parse fuel cs p true acc = Ok (p2, l) ->
  (List.length l <= 1)%nat /\ forall r, In r l -> exists all k, r = RComp all k.
Proof.
  induction fuel as [|fuel IH]; intros cs p acc p2 l Ha Hl H; [discriminate|]. cbn [parse] in H.
  destruct (iterate p) as [p1| | |] eqn:E; try discriminate. cbn [obind] in H.
  destruct (ps_status p1).
  - discriminate.
  - destruct (comp_parse (ps_type p1)) as [all|]; [|discriminate].
    destruct (parse fuel cs p1 false []) as [[p3 kids]| | |] eqn:E2; try discriminate. cbn [obind] in H.
    apply IH in H; auto. intros r [<-|[]]. eauto.
  - inversion H; subst. auto.
  - destruct (crit_parse cs p1) as [[r p3]| | |] eqn:E2; discriminate.
  - eapply IH; eauto.
  - destruct acc; [discriminate|]; inversion H; subst; auto.
Qed.

Lemma parse_text_legal : forall cs s r,
  (forall i k, nth_error cs i = Some k -> NoDup (map fst (cty_map (cr_type k)))) ->
  parse_text cs s = Ok r -> legal cs r /\ exists all l, r = RComp all l.
Proof.
  intros cs s r Hn H. unfold parse_text in H.
  destruct (parse (S (List.length s)) cs (PState s SInit [] 0) true []) as [[p l]| | |] eqn:E; try discriminate.
  cbn [obind snd] in H. destruct l as [|x l]; [discriminate|]. inversion H; subst x. split.
  - eapply parse_legal; eauto; [intros ? []|simpl; auto].
  - apply parse_top_shape in E; [|intros ? []|simpl; lia]. apply E. simpl; auto.
Qed.

(** The parser only stops the process after a comma following the closing brace of a first compound rule. *)
Lemma iterate_suffix : forall p p1, iterate p = Ok p1 ->
  exists a, ps_rest p = a ++ ps_rest p1
    /\ (ps_status p1 = SEnd -> exists a', a = a' ++ ["}"%char] /\ exists d, ps_deep p = S d /\ ps_deep p1 = d)
    /\ (ps_status p1 = SContinue -> exists a', a = a' ++ [","%char] /\ ps_deep p1 = ps_deep p /\ In ","%char (delimiters (ps_status p)))
    /\ (ps_status p1 = SBegin -> ps_deep p1 = S (ps_deep p) /\ In "{"%char (delimiters (ps_status p)))
    /\ (ps_status p1 = SCriterion -> ps_deep p1 = ps_deep p /\ In " "%char (delimiters (ps_status p))).
Proof.
  intros p p1 H. unfold iterate in H. destruct (consume_spaces_suffix (ps_rest p)) as [g Hg].
  destruct (find_first_of (delimiters (ps_status p)) (consume_spaces (ps_rest p))) as [[[a d] b]|] eqn:E.
  - apply find_first_of_Some in E. destruct E as [E [Hd _]]. exists (g ++ a ++ [d]).
    assert (ps_rest p = (g ++ a ++ [d]) ++ b) as Eq.
    { rewrite Hg, E, <- !app_assoc. reflexivity. }
    destruct (char_eqb d "{") eqn:D1.
    { apply char_eqb_eq in D1. subst d. inversion H; subst; cbn [ps_rest ps_status ps_deep].
      split; [auto|]. split; [discriminate|]. split; [discriminate|]. split; [auto|discriminate]. }
    destruct (char_eqb d "}") eqn:D2.
    { apply char_eqb_eq in D2. subst d. destruct (ps_deep p) as [|n]; [discriminate|].
      inversion H; subst; cbn [ps_rest ps_status ps_deep].
      split; [auto|]. split; [|split; [discriminate|split; discriminate]].
      intros _. exists (g ++ a). rewrite app_assoc. split; auto. exists n; auto. }
    destruct (char_eqb d " ") eqn:D3.
    { apply char_eqb_eq in D3. subst d. inversion H; subst; cbn [ps_rest ps_status ps_deep].
      split; [auto|]. split; [discriminate|]. split; [discriminate|]. split; [discriminate|auto]. }
    inversion H; subst; cbn [ps_rest ps_status ps_deep].
    split; [auto|]. split; [discriminate|]. split; [|split; discriminate].
    intros _. assert (d = ","%char); [|subst d; exists (g ++ a); rewrite app_assoc; auto].
    apply char_eqb_neq in D1. apply char_eqb_neq in D2. apply char_eqb_neq in D3.
    destruct (ps_status p); simpl in Hd; intuition congruence.
  - destruct (ps_deep p) eqn:Ed; [|discriminate].
    destruct (consume_spaces (ps_rest p)) eqn:Ec; inversion H; subst; cbn [ps_rest ps_status ps_deep].
    exists g. rewrite <- Hg. split; [auto|]. repeat split; discriminate.
Qed.

Lemma parse_in_suffix : forall fuel cs p acc p2 l d, parse fuel cs p false acc = Ok (p2, l) ->
  ps_deep p = S d ->
  (exists a, ps_rest p = a ++ "}"%char :: ps_rest p2) /\ ps_deep p2 = d /\ ps_status p2 = SEnd.
Proof.
  induction fuel as [|fuel IH]; intros cs p acc p2 l d H Hd; [discriminate|]. cbn [parse] in H.
  destruct (iterate p) as [p1| | |] eqn:E; try discriminate. cbn [obind] in H.
  pose proof (iterate_Ok p p1 E) as Io.
  apply iterate_suffix in E. destruct E as [a [Ea [E1 [E2 [E3 E4]]]]].
  destruct (ps_status p1) eqn:Es.
  - discriminate.
  - destruct (comp_parse (ps_type p1)) as [all|]; [|discriminate].
    destruct (parse fuel cs p1 false []) as [[p3 kids]| | |] eqn:F2; try discriminate. cbn [obind] in H.
    destruct (E3 eq_refl) as [D1 _]. rewrite Hd in D1.
    destruct (IH _ _ _ _ _ _ F2 D1) as [[b Eb] [D2 S2]].
    destruct (IH _ _ _ _ _ _ H D2) as [[c Ec] [D3 S3]].
    split; auto. exists (a ++ b ++ "}"%char :: c). rewrite Ea, Eb, Ec, <- !app_assoc. reflexivity.
  - inversion H; subst. destruct (E1 eq_refl) as [a' [-> [d' [D1 D2]]]].
    split; [|split; [congruence|auto]]. exists a'. rewrite Ea, <- app_assoc. reflexivity.
  - destruct (crit_parse cs p1) as [[r p3]| | |] eqn:F2; try discriminate. cbn [obind] in H.
    apply crit_parse_Ok in F2. destruct F2 as [[b Eb] [_ [_ [D2 _]]]].
    destruct (E4 eq_refl) as [D1 _].
    destruct (IH _ _ _ _ _ d H ltac:(congruence)) as [[c Ec] [D3 S3]].
    split; auto. exists (a ++ b ++ c). rewrite Ea, Eb, Ec, <- !app_assoc. reflexivity.
  - destruct (E2 eq_refl) as [a' [-> [D1 _]]].
    destruct (IH _ _ _ _ _ d H ltac:(congruence)) as [[c Ec] [D3 S3]].
    split; auto. exists ((a' ++ [","%char]) ++ c). rewrite Ea, Ec, <- !app_assoc. reflexivity.
  - destruct Io as [[_ K]|[_ [K _]]]; congruence.
Qed.

Lemma parse_in_no_abort : forall fuel cs p acc, parse fuel cs p false acc <> Abort.
Proof.
  induction fuel as [|fuel IH]; intros cs p acc; [discriminate|]. cbn [parse].
  pose proof (iterate_not_UB p) as [_ N].
  destruct (iterate p) as [p1| | |] eqn:E; try discriminate; try tauto. cbn [obind].
  destruct (ps_status p1); try discriminate.
  - destruct (comp_parse (ps_type p1)); [|discriminate].
    pose proof (IH cs p1 []) as N2.
    destruct (parse fuel cs p1 false []) as [[p3 kids]| | |] eqn:E2; try discriminate; try tauto.
    cbn [obind]. apply IH.
  - pose proof (crit_parse_not_UB cs p1) as [_ N2].
    destruct (crit_parse cs p1) as [[r p3]| | |] eqn:E2; try discriminate; try tauto. cbn [obind]. apply IH.
  - apply IH.
  - destruct acc; discriminate.
Qed.

Lemma parse_top_abort : forall fuel cs p acc, parse fuel cs p true acc = Abort -> ps_deep p = O ->
  ps_status p = SInit \/ ps_status p = SEnd ->
  (exists b c, ps_rest p = b ++ ","%char :: c)
  /\ (ps_status p = SInit -> exists a b c, ps_rest p = a ++ "}"%char :: b ++ ","%char :: c).
Proof.
  induction fuel as [|fuel IH]; intros cs p acc H Hd Hs; [discriminate|]. cbn [parse] in H.
  pose proof (iterate_not_UB p) as [_ N].
  destruct (iterate p) as [p1| | |] eqn:E; try discriminate; try tauto. cbn [obind] in H.
  apply iterate_suffix in E. destruct E as [a [Ea [E1 [E2 [E3 E4]]]]].
  destruct (ps_status p1) eqn:Es1; try discriminate.
  - destruct (E3 eq_refl) as [D1 D2]. rewrite Hd in D1.
    assert (ps_status p = SInit) as Es.
    { destruct Hs as [Hs|Hs]; auto. rewrite Hs in D2. simpl in D2. intuition discriminate. }
    destruct (comp_parse (ps_type p1)) as [all|]; [|discriminate].
    pose proof (parse_in_no_abort fuel cs p1 []) as N2.
    destruct (parse fuel cs p1 false []) as [[p3 kids]| | |] eqn:F2; try discriminate; try tauto.
    cbn [obind] in H.
    destruct (parse_in_suffix _ _ _ _ _ _ _ F2 D1) as [[b Eb] [D3 S2]].
    apply IH in H; auto. destruct H as [[c [e Hc]] _].
    split.
    + exists (a ++ b ++ "}"%char :: c), e. rewrite Ea, Eb, Hc, <- !app_assoc. reflexivity.
    + intros _. exists (a ++ b), c, e. rewrite Ea, Eb, Hc, <- !app_assoc. reflexivity.
  - destruct (E4 eq_refl) as [_ K]. destruct Hs as [Hs|Hs]; rewrite Hs in K; simpl in K; intuition discriminate.
  - destruct (E2 eq_refl) as [a' [-> [_ K]]].
    destruct Hs as [Hs|Hs]; rewrite Hs in K; simpl in K; [intuition discriminate|].
    split; [|congruence]. exists a', (ps_rest p1). rewrite Ea, <- app_assoc. reflexivity.
  - destruct acc; discriminate.
Qed.

Lemma parse_text_abort : forall cs s, parse_text cs s = Abort ->
  exists a b c, s = a ++ lit "}" ++ b ++ lit "," ++ c.
Proof.
  intros cs s H. unfold parse_text in H.
  destruct (parse (S (List.length s)) cs (PState s SInit [] 0) true []) as [[p l]| | |] eqn:E; try discriminate.
  - cbn [obind snd] in H. destruct l; discriminate.
  - apply parse_top_abort in E; auto. apply E. auto.
Qed.

(** ** Completeness on the documented syntax *)

Scheme rule_text_mut := Minimality for rule_text Sort Prop
  with rules_text_mut := Minimality for rules_text Sort Prop.
Combined Scheme rule_text_both from rule_text_mut, rules_text_mut.

Definition closer (rest : str) : Prop := exists c r, rest = c :: r /\ (c = ","%char \/ c = "}"%char).

Lemma parse_ok_fuel : forall f f' cs p top acc x, parse f cs p top acc = Ok x -> parse f' cs p top acc <> UB ->
  parse f' cs p top acc = Ok x.
Proof.
  intros f f' cs p top acc x H N.
  pose proof (parse_mono f cs p top acc _ H ltac:(discriminate) (Nat.max f f') ltac:(lia)) as A.
  pose proof (parse_mono f' cs p top acc _ eq_refl N (Nat.max f f') ltac:(lia)) as B. congruence.
Qed.

Lemma crits_find_named : forall cs n i k, named cs n i k -> n <> [] -> crits_find cs n = Some i.
Proof.
  intros cs n i k [H1 [H2 H3]] Hn. revert i H1 H3. induction cs as [|c cs IH]; intros i H1 H3; [destruct i; discriminate|].
  cbn [crits_find]. destruct i as [|i].
  - simpl in H1. inversion H1; subst c. unfold cr_path_name. rewrite H2. destruct n; [congruence|].
    rewrite str_eqb_refl. auto.
  - assert (str_eqb (cr_path_name c) n = false) as ->.
    { apply str_eqb_neq. apply (H3 0%nat c); simpl; auto. lia. }
    rewrite (IH i); auto. intros j k' Hj Hk. apply (H3 (S j) k'); simpl; auto. lia.
Qed.

Lemma set_matches_when_text : forall t w, (cty_incl t = true \/ w = VIs \/ w = VIsNot) ->
  set_matches_when t (verb_text w) = Some w.
Proof.
  intros t w H. unfold set_matches_when.
  assert (find (fun w' => str_eqb (verb_text w) (verb_text w')) all_verbs = Some w) as -> by (destruct w; reflexivity).
  destruct H as [-> |[-> | ->]]; simpl; auto; rewrite andb_false_r; auto.
Qed.

Lemma verb_free : forall w, free_of (lit "{} ,") (verb_text w).
Proof. intros w c H K. destruct w; simpl in H, K; repeat (destruct H as [<-|H]; [intuition discriminate|]); auto. Qed.

Lemma verb_nonempty : forall w, exists c r, verb_text w = c :: r /\ c <> " "%char.
Proof. intros []; simpl; eauto; eexists; eexists; split; try reflexivity; discriminate. Qed.

Lemma spaces_S : forall b, spaces b -> b <> [] -> exists b', b = " "%char :: b' /\ spaces b'.
Proof.
  intros [|c b] H N; [congruence|]. exists b. rewrite (H c) by (simpl; auto). split; auto.
  intros x Hx. apply H. simpl; auto.
Qed.

Lemma next_word_text : forall g word rest st ty n,
  spaces g -> free_of (lit "{} ,") word -> word <> [] -> (exists c r, rest = c :: r /\ In c (lit "{} ,")) ->
  next_word (PState (g ++ word ++ rest) st ty n) = Ok (word, PState rest st ty n).
Proof.
  intros g word rest st ty n Hg Hw Hn [c [r [-> Hc]]]. unfold next_word. cbn [ps_rest ps_status ps_type ps_deep].
  destruct word as [|x word]; [congruence|].
  assert (consume_spaces (g ++ (x :: word) ++ c :: r) = (x :: word) ++ c :: r) as ->.
  { cbn [app]. apply consume_spaces_to; auto. intros ->. apply (Hw " "%char); simpl; auto. }
  rewrite find_first_of_app by auto. reflexivity.
Qed.

Lemma next_word_value : forall g word d rest st ty n,
  spaces g -> free_of (lit "{} ,") word -> spaces d -> closer rest ->
  exists d', spaces d' /\ next_word (PState (g ++ word ++ d ++ rest) st ty n) = Ok (word, PState (d' ++ rest) st ty n).
Proof.
  intros g word d rest st ty n Hg Hw Hd [c [r [-> Hc]]].
  destruct word as [|x word].
  - exists []. split; [intros ? []|]. unfold next_word. cbn [ps_rest ps_status ps_type ps_deep app].
    rewrite app_assoc, consume_spaces_to by (try (apply spaces_app; auto); destruct Hc; subst; discriminate).
    change (c :: r) with ([] ++ c :: r). rewrite (find_first_of_app (lit "{} ,") [] c r).
    + reflexivity.
    + intros ? [].
    + simpl. intuition.
  - exists d. split; auto. apply next_word_text; auto; [discriminate|].
    destruct d as [|y d]; [exists c, r; simpl; intuition|].
    exists y, (d ++ c :: r). split; auto. rewrite (Hd y) by (simpl; auto). simpl; auto.
Qed.

Lemma iterate_name : forall a n rest st ty d,
  spaces a -> n <> [] -> free_of (lit "{} ") n -> st = SBegin \/ st = SContinue ->
  iterate (PState (a ++ n ++ " "%char :: rest) st ty d) = Ok (PState rest SCriterion n d).
Proof.
  intros a n rest st ty d Ha Hn Hf Hst. unfold iterate. cbn [ps_rest ps_status ps_type ps_deep].
  destruct n as [|x n]; [congruence|].
  assert (consume_spaces (a ++ (x :: n) ++ " "%char :: rest) = (x :: n) ++ " "%char :: rest) as ->.
  { cbn [app]. apply consume_spaces_to; auto. intros ->. apply (Hf " "%char); simpl; auto. }
  rewrite find_first_of_app.
  - reflexivity.
  - intros c Hc K. apply (Hf c Hc). destruct Hst; subst st; simpl in *; intuition.
  - destruct Hst; subst st; simpl; auto.
Qed.

Lemma iterate_open : forall a (all : bool) rest st ty d,
  spaces a -> st = SBegin \/ st = SContinue \/ st = SInit ->
  iterate (PState (a ++ (if all then lit "All" else lit "Any") ++ lit "{" ++ rest) st ty d)
  = Ok (PState rest SBegin (if all then lit "All" else lit "Any") (S d)).
Proof.
  intros a all rest st ty d Ha Hst. unfold iterate. cbn [ps_rest ps_status ps_type ps_deep].
  assert (consume_spaces (a ++ (if all then lit "All" else lit "Any") ++ lit "{" ++ rest)
          = (if all then lit "All" else lit "Any") ++ "{"%char :: rest) as ->.
  { destruct all; (apply consume_spaces_to; [auto|discriminate]). }
  rewrite find_first_of_app.
  - reflexivity.
  - intros c Hc K. destruct all; destruct Hst as [-> |[-> | ->]]; simpl in *; intuition; subst; discriminate.
  - destruct Hst as [-> |[-> | ->]]; simpl; auto.
Qed.

Lemma iterate_close : forall g rest st ty d, spaces g -> st = SBegin \/ st = SEnd \/ st = SCriterion ->
  iterate (PState (g ++ "}"%char :: rest) st ty (S d)) = Ok (PState rest SEnd ty d).
Proof.
  intros g rest st ty d Hg Hst. unfold iterate. cbn [ps_rest ps_status ps_type ps_deep].
  rewrite consume_spaces_to by (auto; discriminate).
  change ("}"%char :: rest) with ([] ++ "}"%char :: rest). rewrite find_first_of_app.
  - reflexivity.
  - intros ? [].
  - destruct Hst as [-> |[-> | ->]]; simpl; auto.
Qed.

Lemma iterate_comma : forall g rest st ty d, spaces g -> st = SEnd \/ st = SCriterion ->
  iterate (PState (g ++ ","%char :: rest) st ty d) = Ok (PState rest SContinue ty d).
Proof.
  intros g rest st ty d Hg Hst. unfold iterate. cbn [ps_rest ps_status ps_type ps_deep].
  rewrite consume_spaces_to by (auto; discriminate).
  change (","%char :: rest) with ([] ++ ","%char :: rest). rewrite find_first_of_app.
  - reflexivity.
  - intros ? [].
  - destruct Hst as [-> | ->]; simpl; auto.
Qed.

Lemma comp_parse_text : forall all : bool, comp_parse (if all then lit "All" else lit "Any") = Some all.
Proof. intros []; reflexivity. Qed.

Lemma parse_complete : forall cs,
  (forall i k, nth_error cs i = Some k -> NoDup (map fst (cty_map (cr_type k)))) ->
  (forall r s, rule_text cs r s -> forall st ty n acc rest, st = SBegin \/ st = SContinue -> closer rest ->
     exists g st' ty', spaces g /\ (st' = SEnd \/ st' = SCriterion)
       /\ forall fuel x, parse fuel cs (PState (g ++ rest) st' ty' (S n)) false (acc ++ [r]) = Ok x ->
            exists fuel', parse fuel' cs (PState (s ++ rest) st ty (S n)) false acc = Ok x)
  /\ (forall l s, rules_text cs l s -> forall st ty n acc rest, st = SBegin \/ (st = SContinue /\ l <> []) ->
     exists fuel ty', parse fuel cs (PState (s ++ "}"%char :: rest) st ty (S n)) false acc
                      = Ok (PState rest SEnd ty' n, acc ++ l)).
Proof.
  intros cs Hnd. apply rule_text_both.
  - intros n i k w value v a b c d Hn Hne Hnf Hw Hv Hvf Ha Hb Hb0 Hc Hc0 Hd st ty dp acc rest Hst Hr.
    destruct (spaces_S b Hb Hb0) as [b' [-> Hb']]. destruct (spaces_S c Hc Hc0) as [c' [-> Hc']].
    destruct (next_word_value (" "%char :: c') value d rest SCriterion n (S dp)) as [d' [Hd' Enw]]; auto.
    exists d', SCriterion, n. split; auto. split; auto. intros fuel x Hx. exists (S fuel). cbn [parse].
    replace ((a ++ n ++ (" "%char :: b') ++ verb_text w ++ (" "%char :: c') ++ value ++ d) ++ rest)
      with (a ++ n ++ " "%char :: (b' ++ verb_text w ++ (" "%char :: c') ++ value ++ d ++ rest))
      by (rewrite <- !app_assoc; reflexivity).
    rewrite iterate_name by auto. cbn [obind ps_status]. unfold crit_parse. cbn [ps_type].
    rewrite (crits_find_named cs n i k) by auto. destruct Hn as [Hk _]. rewrite Hk.
    rewrite next_word_text; auto.
    2: apply verb_free.
    2: { destruct (verb_nonempty w) as [x0 [r0 [E _]]]. rewrite E. discriminate. }
    2: { exists " "%char, (c' ++ value ++ d ++ rest). simpl; auto. }
    cbn [obind]. rewrite Enw. cbn [obind]. rewrite set_matches_when_text by auto.
    apply cty_numerical_spec in Hv; [|eauto]. rewrite Hv. auto.
  - intros all l body a d Hb IH Ha Hd st ty dp acc rest Hst Hr.
    destruct (IH SBegin (if all then lit "All" else lit "Any") (S dp) [] (d ++ rest) ltac:(auto)) as [f1 [ty' E1]].
    exists d, SEnd, ty'. split; auto. split; auto. intros fuel x Hx. exists (S (Nat.max f1 fuel)). cbn [parse].
    replace ((a ++ (if all then lit "All" else lit "Any") ++ lit "{" ++ body ++ lit "}" ++ d) ++ rest)
      with (a ++ (if all then lit "All" else lit "Any") ++ lit "{" ++ (body ++ "}"%char :: d ++ rest))
      by (rewrite <- !app_assoc; reflexivity).
    rewrite iterate_open by tauto. cbn [obind ps_status ps_type]. rewrite comp_parse_text.
    rewrite (parse_mono f1 cs _ _ _ _ E1) by (try discriminate; lia). cbn [obind app].
    rewrite (parse_mono fuel cs _ _ _ _ Hx) by (try discriminate; lia). reflexivity.
  - intros a Ha st ty n acc rest Hst. destruct Hst as [-> |[_ K]]; [|congruence].
    exists 1%nat, ty. cbn [parse]. rewrite iterate_close by auto. cbn [obind ps_status]. rewrite app_nil_r. reflexivity.
  - intros r s Hr IH st ty n acc rest Hst.
    destruct (IH st ty n acc ("}"%char :: rest)) as [g [st' [ty' [Hg [Hs' K]]]]].
    { tauto. } { exists "}"%char, rest. auto. }
    destruct (K 1%nat (PState rest SEnd ty' n, acc ++ [r])) as [fuel E].
    { cbn [parse]. rewrite iterate_close by tauto. reflexivity. }
    eauto.
  - intros r s l s' Hr IHr Hl IHl Hne st ty n acc rest Hst.
    destruct (IHr st ty n acc (","%char :: s' ++ "}"%char :: rest)) as [g [st' [ty' [Hg [Hs' K]]]]].
    { tauto. } { eexists; eexists; split; eauto. }
    destruct (IHl SContinue ty' n (acc ++ [r]) rest ltac:(auto)) as [f2 [ty2 E2]].
    destruct (K (S f2) (PState rest SEnd ty2 n, acc ++ r :: l)) as [fuel E].
    { cbn [parse]. rewrite iterate_comma by auto. cbn [obind ps_status]. rewrite E2, <- app_assoc. reflexivity. }
    exists fuel, ty2. rewrite <- E, <- !app_assoc. reflexivity.
Qed.

Lemma parse_text_complete : forall cs r s,
  (forall i k, nth_error cs i = Some k -> NoDup (map fst (cty_map (cr_type k)))) ->
  source_text cs r s -> parse_text cs s = Ok r.
Proof.
  intros cs r s Hnd [all [l [a [body [-> [Ha [Hb ->]]]]]]]. unfold parse_text.
  set (s := a ++ (if all then lit "All" else lit "Any") ++ lit "{" ++ body ++ lit "}").
  destruct (proj2 (parse_complete cs Hnd) l body Hb SBegin (if all then lit "All" else lit "Any") 0%nat [] []
              ltac:(auto)) as [fuel [ty' E]].
  assert (parse (S (S fuel)) cs (PState s SInit [] 0) true [] = Ok (PState [] SDone ty' 0, [RComp all l])) as E2.
  { remember (S fuel) as f. cbn [parse]. unfold s. rewrite iterate_open by auto. cbn [obind ps_status ps_type].
    rewrite comp_parse_text, (parse_mono fuel cs _ _ _ _ E) by (try discriminate; lia). cbn [obind app].
    subst f. reflexivity. }
  rewrite (parse_ok_fuel _ (S (List.length s)) _ _ _ _ _ E2); [reflexivity|].
  apply parse_not_UB. simpl. lia.
Qed.

(** ** Printing *)

Lemma rule_text_space : forall cs r s, rule_text cs r s -> rule_text cs r (" "%char :: s).
Proof.
  intros cs r s H.
  assert (forall a, spaces a -> spaces (" "%char :: a)) as S1.
  { intros a Ha c [<-|Hc]; auto. }
  destruct H.
  - match goal with |- rule_text _ _ (_ :: a ++ ?x) => change (rule_text cs (RCrit i w v) ((" "%char :: a) ++ x)) end.
    econstructor; eauto.
  - match goal with |- rule_text _ _ (_ :: a ++ ?x) => change (rule_text cs (RComp all l) ((" "%char :: a) ++ x)) end.
    econstructor; eauto.
Qed.

Lemma literal_denotes : forall t l v, In (l, v) (cty_map t) ->
  (cty_incl t = true -> l <> [] /\ ~ In "|"%char l) -> value_denotes t l v.
Proof.
  intros t l v H Hl. unfold value_denotes. destruct (cty_incl t); auto.
  destruct (Hl eq_refl) as [H1 H2]. exists [l], [v]. split.
  - apply (runs_last (lit "|") [] l); auto; [intros ? []|].
    intros c Hc [<-|[]]. auto.
  - split; [constructor; auto|]. simpl. auto.
Qed.

Definition dump_children (cs : list criterion) : bool -> list rule -> str :=
  fix loop (first : bool) (l : list rule) : str :=
    match l with
    | [] => []
    | k :: l' => (if first then [] else lit ", ") ++ rule_dump cs k ++ loop false l'
    end.

Lemma rule_dump_comp : forall cs all l,
  rule_dump cs (RComp all l) = (if all then lit "All" else lit "Any") ++ lit "{" ++ dump_children cs true l ++ lit "}".
Proof. intros cs [] l; reflexivity. Qed.

Lemma dump_children_text : forall cs l,
  (forall r, In r l -> rule_text cs r (rule_dump cs r)) -> rules_text cs l (dump_children cs true l).
Proof.
  intros cs l IH. destruct l as [|x l]; [constructor; intros ? []|].
  assert (forall l x, (forall r, In r (x :: l) -> rule_text cs r (rule_dump cs r)) -> forall s, rule_text cs x s ->
    rules_text cs (x :: l) (s ++ dump_children cs false l)) as G.
  { clear. induction l as [|y l IHl]; intros x H s Hsx; cbn [dump_children].
    - rewrite app_nil_r. constructor. auto.
    - change (lit ", ") with (lit "," ++ lit " "). rewrite <- (app_assoc (lit ",")).
      apply rst_cons; auto; [|discriminate].
      change (rules_text cs (y :: l) ((" "%char :: rule_dump cs y) ++ dump_children cs false l)).
      apply IHl; [intros; apply H; simpl; auto|]. apply rule_text_space. apply H. simpl; auto. }
  cbn [dump_children app]. apply G; auto. apply IH. simpl; auto.
Qed.

Lemma dump_text : forall cs r, printable cs -> single_valued cs r -> legal cs r -> rule_text cs r (rule_dump cs r).
Proof.
  intros cs r Hp. induction r as [c w v|all l IH] using rule_ind2; intros Hs Hl.
  - inversion Hs as [i k w' v' l Hk Hin|]; subst. inversion Hl as [i' k' w' v' value Hk' Hw Hv|]; subst.
    rewrite Hk in Hk'. inversion Hk'; subst k'.
    destruct (Hp c k Hk) as [P1 [P2 [P3 [P4 [P5 P6]]]]]. destruct (P6 l v Hin) as [P7 P8].
    cbn [rule_dump]. unfold crit_dump. rewrite Hk. unfold cty_literal. rewrite (map_literal_In _ _ _ P5 Hin).
    replace (cr_name k ++ lit " " ++ verb_text w ++ lit " " ++ l)
      with ([] ++ cr_name k ++ lit " " ++ verb_text w ++ lit " " ++ l ++ []) by (rewrite app_nil_r; auto).
    assert (spaces [] /\ spaces (lit " ")) as [S0 S1].
    { split; intros x Hx; simpl in Hx; intuition. }
    apply (rt_crit cs (cr_name k) c k); auto; try discriminate.
    + split; auto. split; auto. intros j k' Hj Hkj K. destruct (Hp j k' Hkj) as [Q1 _].
      unfold cr_path_name in K. destruct (cr_name k') as [|x n] eqn:En; [congruence|].
      assert (c = j); [|lia]. apply (P3 j k'); auto. congruence.
    + apply literal_denotes; auto.
  - inversion Hs as [|? ? Hs']; subst. inversion Hl as [|? ? Hl']; subst. rewrite rule_dump_comp.
    replace ((if all then lit "All" else lit "Any") ++ lit "{" ++ dump_children cs true l ++ lit "}")
      with ([] ++ (if all then lit "All" else lit "Any") ++ lit "{" ++ dump_children cs true l ++ lit "}" ++ [])
      by (rewrite app_nil_r; auto).
    constructor; try (intros ? []). apply dump_children_text. auto.
Qed.

Lemma dump_parse : forall cs all l, printable cs -> single_valued cs (RComp all l) -> legal cs (RComp all l) ->
  parse_text cs (rule_dump cs (RComp all l)) = Ok (RComp all l).
Proof.
  intros cs all l Hp Hs Hl. apply parse_text_complete; [intros i k Hk; apply (Hp i k Hk)|].
  exists all, l, [], (dump_children cs true l). split; auto. split; [intros ? []|]. rewrite rule_dump_comp. split; auto.
  inversion Hs as [|? ? Hs']; subst. inversion Hl as [|? ? Hl']; subst.
  apply dump_children_text. intros r Hr. apply dump_text; auto.
Qed.

Lemma exclusive_single : forall cs r, legal cs r -> (forall i k, nth_error cs i = Some k -> cty_incl (cr_type k) = false) ->
  single_valued cs r.
Proof.
  intros cs r. induction r as [c w v|all l IH] using rule_ind2; intros Hl Hx.
  - inversion Hl as [i k w' v' value Hk Hw Hv|]; subst. unfold value_denotes in Hv. rewrite (Hx _ _ Hk) in Hv.
    econstructor; eauto.
  - inversion Hl as [|? ? Hl']; subst. constructor. auto.
Qed.

(** What is read back can be set again, giving the same rule. *)
Lemma set_get_set : forall cs s old r, printable cs ->
  set_application_rule cs s old = Ok (true, Some r) -> single_valued cs r ->
  forall old', set_application_rule cs (get_application_rule cs (Some r)) old' = Ok (true, Some r).
Proof.
  intros cs s old r Hp H Hs old'. unfold set_application_rule in H.
  destruct (parse_text cs s) as [r'| | |] eqn:E; try discriminate. inversion H; subst r'.
  apply parse_text_legal in E; [|intros i k Hk; apply (Hp i k Hk)].
  destruct E as [Hl [all [l ->]]]. unfold set_application_rule, get_application_rule.
  rewrite dump_parse by auto. reflexivity.
Qed.

(** A text that is not accepted leaves the rule as it was. *)
Lemma set_rule_cases : forall cs s old,
  set_application_rule cs s old = Abort
  \/ set_application_rule cs s old = Ok (false, old)
  \/ exists r, parse_text cs s = Ok r /\ set_application_rule cs s old = Ok (true, Some r).
Proof.
  intros cs s old. unfold set_application_rule. pose proof (parse_text_not_UB cs s).
  destruct (parse_text cs s); try congruence; eauto.
Qed.
