(** C13, C14, C15: application rules. *)
From Coq Require Import List Arith ZArith Bool Ascii String Lia.
From Verif Require Import Base TextModel TextSpec CriterionModel CriterionSpec CriterionProofs RuleModel RuleSpec RuleProofs.
Import ListNotations.
Open Scope Z_scope.

Definition ex_modes : crit_type := CritType false [(lit "Call", 1); (lit "Idle", 0); (lit "Ring", 7)].
Definition ex_devs : crit_type := CritType true [(lit "Ear", 2); (lit "HS", 1); (lit "none", 0)].
(** Mode is Ring, Devices is HS|Ear. *)
Definition ex_cs : list criterion :=
  [Criterion (lit "Mode") ex_modes 7 1; Criterion (lit "Devices") ex_devs 3 2].
Definition ex_rule : rule := RComp true [RCrit 0 VIsNot 1; RComp false [RCrit 1 VIncludes 3; RCrit 1 VExcludes 1]; RComp false []].

(** ** C13 *)

Theorem C13_rule_meaning : forall cs state r,
  (forall r', r = Some r' -> in_scope cs r') -> (forall i k, nth_error cs i = Some k -> state i = cr_state k) ->
  (is_applicable cs r = true <-> exists r', r = Some r' /\ holds state r').
Proof. exact applicable_spec. Qed.
Print Assumptions C13_rule_meaning.

Example C13_rule_meaning_nonvacuous :
  in_scope ex_cs (RComp true [RCrit 0 VIsNot 1; RComp false [RCrit 1 VExcludes 1; RCrit 1 VIncludes 3]])
  /\ is_applicable ex_cs (Some (RComp true [RCrit 0 VIsNot 1; RComp false [RCrit 1 VExcludes 1; RCrit 1 VIncludes 3]])) = true
  /\ is_applicable ex_cs (Some (RComp true [RCrit 0 VIs 1; RComp false [RCrit 1 VExcludes 1]])) = false.
Proof.
  split; [|split; vm_compute; reflexivity]. constructor. intros r [<-|[<-|[]]]; constructor; [simpl; lia|].
  intros r [<-|[<-|[]]]; constructor; simpl; lia.
Qed.

(** A change of a criterion that the rule does not mention changes nothing. *)
Theorem C13_only_mentioned : forall cs cs' r,
  (forall i, mentions i r -> option_map cr_state (nth_error cs i) = option_map cr_state (nth_error cs' i)) ->
  rule_matches cs r = rule_matches cs' r.
Proof. exact rule_matches_ext. Qed.
Print Assumptions C13_only_mentioned.

(** ** C14 *)

(** The text of a rule, given back, is accepted and gives the very same rule: for rules whose values are single declared
    values, over criteria with distinct, writable names and literals.  Missing: values joining several bits of an
    inclusive criterion ([C14_joined_value_refuted]) and names or literals that contain the characters of the syntax
    ([C14_unwritable_literal_refuted]). *)
Theorem C14_round_trip_partial : forall cs s old r, printable cs ->
  set_application_rule cs s old = Ok (true, Some r) -> single_valued cs r ->
  forall old', set_application_rule cs (get_application_rule cs (Some r)) old' = Ok (true, Some r).
Proof. exact set_get_set. Qed.
Print Assumptions C14_round_trip_partial.

(** Over exclusive criteria there is no condition on the values. *)
Theorem C14_round_trip_exclusive : forall cs s old r, printable cs ->
  (forall i k, nth_error cs i = Some k -> cty_incl (cr_type k) = false) ->
  set_application_rule cs s old = Ok (true, Some r) ->
  forall old', set_application_rule cs (get_application_rule cs (Some r)) old' = Ok (true, Some r).
Proof.
  intros cs s old r Hp Hx H old'. eapply set_get_set; eauto.
  unfold set_application_rule in H. destruct (parse_text cs s) as [r'| | |] eqn:E; try discriminate. inversion H; subst r'.
  apply parse_text_legal in E; [|intros i k Hk; apply (Hp i k Hk)]. apply exclusive_single; tauto.
Qed.
Print Assumptions C14_round_trip_exclusive.

Definition ex_rule1 : rule := RComp true [RCrit 0 VIsNot 1; RComp false [RCrit 1 VIncludes 2; RCrit 1 VExcludes 1]; RComp false []].

Example C14_round_trip_nonvacuous :
  parse_text ex_cs (lit " All{ Mode   IsNot Call,Any{Devices Includes Ear , Devices Excludes HS}, Any{ } }") = Ok ex_rule1
  /\ rule_dump ex_cs ex_rule1 = lit "All{Mode IsNot Call, Any{Devices Includes Ear, Devices Excludes HS}, Any{}}"
  /\ parse_text ex_cs (rule_dump ex_cs ex_rule1) = Ok ex_rule1 /\ single_valued ex_cs ex_rule1.
Proof.
  split; [vm_compute; reflexivity|]. split; [vm_compute; reflexivity|]. split; [vm_compute; reflexivity|].
  constructor. intros r [<-|[<-|[<-|[]]]].
  - apply (sv_crit ex_cs 0 _ _ 1 (lit "Call") eq_refl). simpl; auto.
  - constructor. intros r [<-|[<-|[]]].
    + apply (sv_crit ex_cs 1 _ _ 2 (lit "Ear") eq_refl). simpl; auto.
    + apply (sv_crit ex_cs 1 _ _ 1 (lit "HS") eq_refl). simpl; auto.
  - constructor. intros r [].
Qed.

Lemma free_of_dec : forall cs s, forallb (fun c => negb (in_chars cs c)) s = true -> free_of cs s.
Proof.
  intros cs s H c Hc K. rewrite forallb_forall in H. specialize (H c Hc).
  apply BaseProofs.in_chars_In in K. rewrite K in H. discriminate.
Qed.

Example ex_cs_printable : printable ex_cs.
Proof.
  intros [|[|i]] k H; [..|destruct i; discriminate]; simpl in H; inversion H; subst k; clear H; cbn [cr_name cr_type cty_map map fst snd].
  - split; [discriminate|]. split; [apply free_of_dec; reflexivity|]. split.
    { intros [|[|j]] k' H E; auto; [|destruct j; discriminate]. simpl in H. inversion H; subst k'. discriminate. }
    split; [repeat constructor; simpl; intuition discriminate|]. split; [repeat constructor; simpl; intuition discriminate|].
    intros l v [E|[E|[E|[]]]]; inversion E; subst; (split; [apply free_of_dec; reflexivity|discriminate]).
  - split; [discriminate|]. split; [apply free_of_dec; reflexivity|]. split.
    { intros [|[|j]] k' H E; auto; [|destruct j; discriminate]. simpl in H. inversion H; subst k'. discriminate. }
    split; [repeat constructor; simpl; intuition discriminate|]. split; [repeat constructor; simpl; intuition discriminate|].
    intros l v [E|[E|[E|[]]]]; inversion E; subst;
      (split; [apply free_of_dec; reflexivity|intros _; split; [discriminate|simpl; intuition discriminate]]).
Qed.

(** A rule on several bits of an inclusive criterion is accepted, but is printed without its value; giving back the text
    yields a rule with another meaning. *)
Theorem C14_joined_value_refuted : exists cs s r r',
  printable cs /\ set_application_rule cs s None = Ok (true, Some r)
  /\ set_application_rule cs (get_application_rule cs (Some r)) None = Ok (true, Some r')
  /\ exists state, holds state r' /\ ~ holds state r.
Proof.
  exists ex_cs, (lit "All{Devices Includes HS|Ear}"), (RComp true [RCrit 1 VIncludes 3]), (RComp true [RCrit 1 VIncludes 0]).
  split; [exact ex_cs_printable|]. split; [vm_compute; reflexivity|]. split; [vm_compute; reflexivity|].
  exists (fun _ => 0). split.
  - constructor. intros r [<-|[]]. constructor. intros i _ H. rewrite Z.bits_0 in H. discriminate.
  - intros H. inversion H as [|? Hl|]; subst. specialize (Hl _ (or_introl eq_refl)). inversion Hl as [? ? ? Hv| |]; subst.
    specialize (Hv 0 ltac:(lia) eq_refl). rewrite Z.bits_0 in Hv. discriminate.
Qed.
Print Assumptions C14_joined_value_refuted.

(** A literal with a space, which addValuePair accepts and an XML import can name in a rule, gives a text that is refused. *)
Theorem C14_unwritable_literal_refuted : exists cs r old,
  (forall k, In k cs -> built false (cr_type k)) /\ legal cs r /\ single_valued cs r
  /\ set_application_rule cs (get_application_rule cs (Some r)) old = Ok (false, old).
Proof.
  exists [cr_new (lit "Mode") (CritType false [(lit "In call", 1)])], (RComp true [RCrit 0 VIs 1]), None.
  split.
  { intros k [<-|[]]. apply (built_add false (cty_new false) 1 (lit "In call")); [constructor|split; vm_compute; discriminate|].
    vm_compute. reflexivity. }
  split.
  { constructor. intros r [<-|[]]. eapply legal_crit; [reflexivity|auto|].
    unfold value_denotes. cbn [cr_new cr_type cty_incl cty_map]. left. reflexivity. }
  split.
  { constructor. intros r [<-|[]]. eapply sv_crit; [reflexivity|]. left. reflexivity. }
  vm_compute. reflexivity.
Qed.
Print Assumptions C14_unwritable_literal_refuted.

(** ** C15 *)

(** Every text of the documented syntax, with any spacing, is accepted and installs the rule it denotes. *)
Theorem C15_accepts_syntax : forall cs r s old,
  (forall i k, nth_error cs i = Some k -> NoDup (map fst (cty_map (cr_type k)))) ->
  source_text cs r s -> set_application_rule cs s old = Ok (true, Some r).
Proof. intros cs r s old Hn H. unfold set_application_rule. rewrite (parse_text_complete cs r s Hn H). reflexivity. Qed.
Print Assumptions C15_accepts_syntax.

Example C15_accepts_syntax_nonvacuous :
  source_text ex_cs (RComp false [RCrit 1 VIncludes 3; RComp true []]) (lit " Any{Devices  Includes HS|Ear ,All{ }}").
Proof.
  exists false, [RCrit 1 VIncludes 3; RComp true []], (lit " "), (lit "Devices  Includes HS|Ear ,All{ }").
  assert (forall s, forallb (fun c => char_eqb c " ") s = true -> spaces s) as Sp.
  { intros s H c Hc. rewrite forallb_forall in H. apply BaseProofs.char_eqb_eq. auto. }
  split; auto. split; [apply Sp; reflexivity|]. split; [|reflexivity].
  change (lit "Devices  Includes HS|Ear ,All{ }") with (lit "Devices  Includes HS|Ear " ++ lit "," ++ lit "All{ }").
  apply rst_cons; [| |discriminate].
  - apply (rt_crit ex_cs (lit "Devices") 1 (Criterion (lit "Devices") ex_devs 3 2) VIncludes (lit "HS|Ear") 3
             [] (lit "  ") (lit " ") (lit " ")); try (apply Sp; reflexivity); try discriminate;
      try (apply free_of_dec; reflexivity).
    + split; auto. split; auto. intros [|j] k' Hj H; [|lia]. simpl in H. inversion H; subst k'. discriminate.
    + auto.
    + apply cty_numerical_spec; [repeat constructor; simpl; intuition discriminate|]. vm_compute. reflexivity.
  - apply rst_one. apply (rt_comp ex_cs true [] (lit " ") [] []); try (apply Sp; reflexivity).
    constructor. apply Sp. reflexivity.
Qed.

(** Whatever the text: the call installs a legal rule, or reports an error and leaves the rule as it was, or stops the
    process; the last only for a text with a comma after a closing brace.  Missing: the last case
    ([C15_abort_refuted]), and the parts of the text that are ignored. *)
Theorem C15_outcomes_partial : forall cs s old,
  (forall i k, nth_error cs i = Some k -> NoDup (map fst (cty_map (cr_type k)))) ->
  (exists r, set_application_rule cs s old = Ok (true, Some r) /\ legal cs r /\ exists all l, r = RComp all l)
  \/ set_application_rule cs s old = Ok (false, old)
  \/ (set_application_rule cs s old = Abort /\ exists a b c, s = a ++ lit "}" ++ b ++ lit "," ++ c).
Proof.
  intros cs s old Hn. destruct (set_rule_cases cs s old) as [H|[H|[r [H1 H2]]]]; auto.
  - right. right. split; auto. unfold set_application_rule in H.
    destruct (parse_text cs s) eqn:E; try discriminate. apply parse_text_abort in E. auto.
  - left. exists r. split; auto. eapply parse_text_legal; eauto.
Qed.
Print Assumptions C15_outcomes_partial.

(** A text that stops the process. *)
Theorem C15_abort_refuted : exists cs s old, set_application_rule cs s old = Abort.
Proof. exists ex_cs, (lit "Any{}, Mode Is Call,"), None. vm_compute. reflexivity. Qed.
Print Assumptions C15_abort_refuted.

(** Two rules in the text: only the last one is kept. *)
Theorem C15_last_root_refuted : exists cs all1 l1 all2 l2,
  l1 <> [] /\ set_application_rule cs (rule_dump cs (RComp all1 l1) ++ lit "," ++ rule_dump cs (RComp all2 l2)) None
  = Ok (true, Some (RComp all2 l2)).
Proof.
  exists ex_cs, true, [RCrit 0 VIs 1], false, [RCrit 0 VIs 7]. split; [discriminate|]. vm_compute. reflexivity.
Qed.
Print Assumptions C15_last_root_refuted.

(** Text after a value, up to the next comma or closing brace, is ignored; so is a word alone
    between braces. *)
Theorem C15_ignored_text_refuted : exists cs,
  set_application_rule cs (lit "All{Mode Is Call and other { things}") None = Ok (true, Some (RComp true [RCrit 0 VIs 1]))
  /\ set_application_rule cs (lit "All{garbage}") None = Ok (true, Some (RComp true [])).
Proof. exists ex_cs. split; vm_compute; reflexivity. Qed.
Print Assumptions C15_ignored_text_refuted.
