(** C71: the commands of the test platform. *)
From Coq Require Import List Arith ZArith Bool Ascii String Lia Permutation.
From Verif Require Import Base BaseProofs TextModel TextSpec TextProofs TextProps ParamTypeSpec BitProofs CriterionModel CriterionSpec CriterionProofs CriterionProps RuleSpec RuleProofs TreeModel TreeSpec SyncModel DomainModel MgrModel MgrSpec MgrProofs ValueSpec ValueProofs LoadModel LoadSpec LoadProofs LoadProps MgrSkel RemoteModel CommandModel CapiModel CapiSpec CapiProofs CapiProps PlatModel PlatSpec PlatProofs Demo.
Import ListNotations.
Local Open Scope nat_scope.

Ltac run_entry := unfold asks; match goal with |- context [pprocess ?su ?p (Request ?n ?a)] => rewrite (ask_entry su p n a _ eq_refl eq_refl eq_refl) end; cbn [pe_do entry_of].

(** ** Creation of criteria *)

(** What [create] does, for states that the ints can number. *)
Lemma create_makes : forall (incl : bool) n vs p, (if incl then List.length vs <= 31 else (Z.of_nat (List.length vs) <= 2 ^ 31 - 1)%Z) ->
  let c := CCrit (Some n) incl (Some vs) in
  (makeable c -> exists k p', create incl n vs p = Ok (RDone, p') /\ same_but_criteria p p' /\ criteria p' = criteria p ++ [k] /\ described c k /\ cr_state k = 0%Z /\ cr_modified k = false)
  /\ (~ makeable c -> exists t, create incl n vs p = Ok (RFailed t, p)).
Proof.
  intros incl n vs p L c.
  assert (Z.of_nat (List.length vs) <= 2 ^ 31 - 1)%Z as L' by (destruct incl; lia).
  pose proof (described_new c n vs eq_refl eq_refl L') as D. cbn [cc_incl c] in D.
  pose proof (add_states_values incl vs 0 (cty_new incl) ltac:(lia) ltac:(intros ->; lia)) as A.
  unfold create. destruct (add_states incl 0 vs (cty_new incl)) as [[t|e]| | |]; try (rewrite A in D; try contradiction); try contradiction; cbn [obind].
  - destruct D as [D1 [_ D3]]. split; [|tauto]. intros _. exists (cr_new n t), (with_criteria p (crits_create (criteria p) n t)).
    split; auto. split; [apply same_with|]. split; [reflexivity|]. split; [exact D1|]. auto.
  - split; [intros M; contradiction|]. intros _. exists e. auto.
Qed.

(** The creation of a criterion from the list of its states: refused if two states have the same name, or for an inclusive one if a state
    is called "none"; otherwise the criterion is added after the others, with exactly the states given and their numbers, in state 0.
    A refusal changes nothing. *)
Theorem C71_create_list_partial : forall (incl : bool) su p n vs, vs <> [] -> (if incl then List.length vs <= 31 else (Z.of_nat (List.length vs) <= 2 ^ 31 - 1)%Z) ->
  let c := CCrit (Some n) incl (Some vs) in
  (makeable c -> exists k p', asks su p (list_command incl) (n :: vs) = Ok (done_answer, p') /\ same_but_criteria p p'
                   /\ criteria p' = criteria p ++ [k] /\ described c k /\ cr_state k = 0%Z /\ cr_modified k = false)
  /\ (~ makeable c -> exists t, asks su p (list_command incl) (n :: vs) = Ok (Answer t false, p)).
Proof.
  intros incl su p n vs Ne L c. destruct (create_makes incl n vs p L) as [A B]. fold c in A, B.
  assert (forall r p', create incl n vs p = Ok (r, p') -> asks su p (list_command incl) (n :: vs) = Ok (match r with RDone => Answer (lit "Done") true | RSucceeded t => Answer t true | RUsage => Answer (pusage (entry_of (list_command incl) 2 "<name> <stateList>" "" (h_create_list incl))) false | RFailed t => Answer t false end, p')) as W.
  { intros r p' H. unfold asks. destruct vs as [|v vs]; [congruence|].
    destruct incl; cbn [list_command]; run_entry; unfold h_create_list; cbn [arg nth_error obind skipn]; rewrite H; reflexivity. }
  split.
  - intros M. destruct (A M) as [k [p' [H K]]]. exists k, p'. split; auto. apply (W _ _ H).
  - intros M. destruct (B M) as [t H]. exists t. apply (W _ _ H).
Qed.
Print Assumptions C71_create_list_partial.

Lemma print_dec_inj : forall a b, print_dec a = print_dec b -> a = b.
Proof. intros a b H. apply (C39_int_text_functional (print_dec a)); [|rewrite H]; apply print_dec_spec. Qed.

Lemma state_name_number : forall incl i, state_name incl i = (if incl then lit "State_0x" else lit "State_") ++ print_dec (number incl i).
Proof. intros incl i. unfold state_name, number. destruct incl; auto. rewrite Z.shiftl_1_l. auto. Qed.

Lemma state_name_inj : forall incl i j, state_name incl i = state_name incl j -> i = j.
Proof.
  intros incl i j H. rewrite !state_name_number in H. apply app_inv_head in H. apply print_dec_inj in H.
  destruct (Nat.lt_trichotomy i j) as [L|[L|L]]; auto; pose proof (number_lt incl _ _ L); lia.
Qed.

Lemma state_names_NoDup : forall incl n, NoDup (state_names incl n).
Proof.
  intros incl n. unfold state_names. generalize 0. induction n as [|n IH]; intros a; constructor; auto.
  intros H. apply in_map_iff in H. destruct H as [j [H1 H2]]. apply state_name_inj in H1. subst. apply in_seq in H2. lia.
Qed.

Lemma state_names_none : forall incl n, ~ In (lit "none") (state_names incl n).
Proof. intros incl n H. apply in_map_iff in H. destruct H as [i [H _]]. destruct incl; discriminate H. Qed.

Lemma state_names_length : forall incl n, List.length (state_names incl n) = n.
Proof. intros incl n. unfold state_names. rewrite map_length, seq_length. auto. Qed.

Lemma state_names_nth : forall incl n i l, nth_error (state_names incl n) i = Some l <-> i < n /\ l = state_name incl i.
Proof.
  intros incl n i l. unfold state_names. rewrite nth_error_map. split.
  - intros H. destruct (nth_error (seq 0 n) i) as [j|] eqn:E; [|discriminate]. assert (i < n) as L by (rewrite <- (seq_length n 0); apply nth_error_Some; congruence).
    assert (j = i) as ->; [|inversion H; auto]. apply (nth_error_nth _ _ 0) in E. rewrite seq_nth in E by auto. auto.
  - intros [L ->]. assert (nth_error (seq 0 n) i = Some i) as ->; auto. rewrite (nth_error_nth' _ 0) by (rewrite seq_length; auto). rewrite seq_nth by auto. auto.
Qed.

(** With a 32nd state, an inclusive criterion makes the platform compute the smallest int minus one. *)
Theorem C71_create_list_refuted : exists su p n vs, NoDup vs /\ ~ In (lit "none") vs /\ List.length vs = 32
  /\ asks su p (list_command true) (n :: vs) = UB.
Proof.
  exists (Around (fun _ _ => LNothing) [] []), p_new, (lit "Devices"), (state_names false 32). split; [|split; [|split]].
  - apply state_names_NoDup.
  - intros H. repeat (destruct H as [H|H]; [discriminate H|]). destruct H.
  - reflexivity.
  - vm_compute. reflexivity.
Qed.
Print Assumptions C71_create_list_refuted.

(** Whatever the text of the count, its number of states is that of strtoul. *)
Lemma create_counts : forall (incl : bool) su p n c k, strtoull0 c = Z.of_nat k -> (if incl then k <= 31 else (Z.of_nat k <= 2 ^ 31 - 1)%Z) ->
  exists kr p', asks su p (count_command incl) [n; c] = Ok (done_answer, p') /\ same_but_criteria p p' /\ criteria p' = criteria p ++ [kr] /\ numbered_criterion incl n k kr.
Proof.
  intros incl su p n c k Hc L. assert (Z.to_nat (strtoull0 c) = k) as Ek by (rewrite Hc; apply Nat2Z.id).
  destruct (create_makes incl n (state_names incl k) p) as [A _]; [rewrite state_names_length; exact L|].
  destruct A as [kr [p' [H [A1 [A2 [A3 [A4 _]]]]]]].
  { exists n, (state_names incl k). split; auto. split; auto. split; [apply state_names_NoDup|]. intros E. cbn [cc_incl] in E. subst incl. rewrite state_names_length. split; auto. apply state_names_none. }
  exists kr, p'. split; [|split; [|split]]; auto.
  - unfold asks. destruct incl; cbn [count_command]; run_entry; unfold h_create_count; cbn [arg nth_error obind]; rewrite Ek, H; reflexivity.
  - destruct A3 as [B1 [B2 [vs [B3 B4]]]]. cbn [cc_name cc_incl cc_values] in *. inversion B1; inversion B3; subst. split; auto. split; auto. split; auto.
    intros l v. rewrite B4. split; intros [H0|H0]; auto; left.
    + destruct H0 as [i [H1 ->]]. apply state_names_nth in H1. destruct H1 as [H1 ->]. exists i. split; auto. split; auto. rewrite state_name_number. auto.
    + destruct H0 as [i [H1 [-> ->]]]. exists i. split; auto. apply state_names_nth. split; auto. rewrite state_name_number. auto.
Qed.

(** The creation of a criterion from the number of its states, written in decimal or hexadecimal: always done, the criterion is added
    after the others with that many states. *)
Theorem C71_create_count_partial : forall (incl : bool) su p n c k, plain_number c (Z.of_nat k) -> (if incl then k <= 31 else (Z.of_nat k <= 2 ^ 31 - 1)%Z) ->
  exists kr p', asks su p (count_command incl) [n; c] = Ok (done_answer, p') /\ same_but_criteria p p' /\ criteria p' = criteria p ++ [kr] /\ numbered_criterion incl n k kr.
Proof.
  intros incl su p n c k Hc L. apply create_counts; auto. rewrite (strtoull0_plain _ _ Hc). rewrite Z.min_l; auto. destruct incl; lia.
Qed.
Print Assumptions C71_create_count_partial.

(** A text that is no number at all is taken as the number 0: a criterion without states is created and the answer is "Done". *)
Theorem C71_create_count_refuted : exists incl su p n c kr p', (forall v, ~ int_text c v)
  /\ asks su p (count_command incl) [n; c] = Ok (done_answer, p') /\ criteria p' = [kr] /\ numbered_criterion incl n 0 kr.
Proof.
  destruct (create_counts false (Around (fun _ _ => LNothing) [] []) p_new (lit "Mode") (lit "three") 0 eq_refl ltac:(vm_compute; discriminate)) as [kr [p' [A [B [C D]]]]].
  exists false, (Around (fun _ _ => LNothing) [] []), p_new, (lit "Mode"), (lit "three"), kr, p'. split; [|split; [|split]]; auto.
  intros v H. inversion H as [s ds _ F E|s ds _ F E|s ds _ F E|s ds _ F E]; try discriminate E. inversion F as [|? ? ? ? Dd]; subst. unfold dec_digit in Dd. change (bval "t"%char) with 116%Z in Dd. lia.
Qed.
Print Assumptions C71_create_count_refuted.

(** The states of an inclusive criterion are named after their number "in hexadecimal", but it is written in decimal: the state
    State_0x16 has the number 16, which is not 0x16. *)
Theorem C71_state_name_refuted : exists su p' kr v, asks su p_new (count_command true) [lit "Devices"; lit "5"] = Ok (done_answer, p')
  /\ criteria p' = [kr] /\ convertTo t_int32 (lit "0x16") = Some v /\ cty_atomic (cr_type kr) (lit "State_0x16") = Some 16%Z /\ v <> 16%Z.
Proof.
  exists (Around (fun _ _ => LNothing) [] []). eexists. eexists. exists 22%Z. split; [vm_compute; reflexivity|]. split; [reflexivity|]. split; [vm_compute; reflexivity|]. split; [vm_compute; reflexivity|discriminate].
Qed.
Print Assumptions C71_state_name_refuted.

(** ** States *)

(** A state given by a number: the criterion called so, and nothing else, takes the number as an int; the other arguments do not
    matter.  An unknown criterion is refused and nothing changes. *)
Theorem C71_set_number : forall su p n a v more, convertTo t_uint32 a = Some v ->
  (forall i k, is_called p n i k -> exists p', asks su p "setCriterionState" (n :: a :: more) = Ok (done_answer, p') /\ state_set p p' i (as_int v))
  /\ (not_called p n -> asks su p "setCriterionState" (n :: a :: more) = Ok (Answer (lit "Unable to retrieve selection criterion: " ++ n) false, p)).
Proof.
  intros su p n a v more Hv.
  assert (0 <= v < 2 ^ 32)%Z as R.
  { apply convertTo_range in Hv. unfold ct_lo, ct_hi, t_uint32 in Hv. simpl in Hv. lia. }
  split.
  - intros i k C. exists (set_state p i v). split.
    + run_entry. unfold h_set_state. cbn [arg nth_error obind]. rewrite Hv. fold (criteria p). rewrite (find_called p n i k C). reflexivity.
    + rewrite <- (int_as_int v R). apply (set_state_set p i k). apply C.
  - intros C. run_entry. unfold h_set_state. cbn [arg nth_error obind]. rewrite Hv. fold (criteria p). rewrite (find_none _ _ C). reflexivity.
Qed.
Print Assumptions C71_set_number.

(** States given by their names: for an exclusive criterion, exactly one, that it has; for an inclusive one, any number of them,
    that it has, whose values are joined.  Otherwise the command fails and nothing changes. *)
Theorem C71_set_names : forall su p n a more, p_obtainable p -> convertTo t_uint32 a = None ->
  let states := a :: more in
  (forall i k, is_called p n i k -> cty_incl (cr_type k) = false ->
     (forall v, more = [] -> In (a, v) (cty_map (cr_type k)) -> exists p', asks su p "setCriterionState" (n :: states) = Ok (done_answer, p') /\ state_set p p' i v)
     /\ (more <> [] \/ (forall v, ~ In (a, v) (cty_map (cr_type k))) -> exists t, asks su p "setCriterionState" (n :: states) = Ok (Answer t false, p)))
  /\ (forall i k, is_called p n i k -> cty_incl (cr_type k) = true ->
     (forall v, value_denotes (cr_type k) (join (lit "|") states) v -> exists p', asks su p "setCriterionState" (n :: states) = Ok (done_answer, p') /\ state_set p p' i v)
     /\ ((forall v, ~ value_denotes (cr_type k) (join (lit "|") states) v) -> exists t, asks su p "setCriterionState" (n :: states) = Ok (Answer t false, p)))
  /\ (not_called p n -> asks su p "setCriterionState" (n :: states) = Ok (Answer (lit "Unable to retrieve selection criterion: " ++ n) false, p)).
Proof.
  intros su p n a more Ob Ha states. pose proof (obtainable_built p Ob) as B.
  assert (forall i k, is_called p n i k ->
    asks su p "setCriterionState" (n :: states)
    = (if negb (cty_incl (cr_type k)) && negb (List.length states =? 1) then Ok (Answer (lit "Exclusive criterion " ++ n ++ lit " can only have one state") false, p)
       else match cty_numerical (cr_type k) (join (lit "|") states) with
            | None => Ok (Answer (lit "Unable to find lexical state """ ++ join (lit "|") states ++ lit """ in criteria " ++ n) false, p)
            | Some v => Ok (done_answer, set_state p i v)
            end)) as W.
  { intros i k C. run_entry. unfold h_set_state, states. cbn [arg nth_error obind]. rewrite Ha. unfold set_lexical. cbn [arg nth_error obind skipn]. fold (criteria p). rewrite (find_called p n i k C).
    pose proof C as [_ [C1 _]]. rewrite C1. destruct (negb _ && negb _); [reflexivity|]. destruct (cty_numerical _ _); reflexivity. }
  assert (forall i k v, is_called p n i k -> value_denotes (cr_type k) (join (lit "|") states) v -> is_int v) as Iv.
  { intros i k v [_ [C1 _]] D. apply nth_error_In in C1. apply (numerical_is_int _ _ _ (B _ C1) D). }
  split; [|split].
  - intros i k C E. pose proof C as [_ [C1 _]]. pose proof (nth_error_In _ _ C1) as Ik. specialize (W i k C). rewrite E in W. cbn [negb andb] in W. split.
    + intros v -> Hv. unfold states in W. cbn [List.length Nat.eqb negb] in W.
      assert (value_denotes (cr_type k) (join (lit "|") [a]) v) as D by (unfold value_denotes; rewrite E; exact Hv).
      rewrite (proj2 (C16_numerical_value _ _ _ v (B _ Ik)) D) in W. exists (set_state p i v). split; [exact W|].
      rewrite <- (int_id v (Iv i k v C D)) at 2. apply (set_state_set p i k v C1).
    + intros H. destruct more as [|b more].
      * destruct H as [H|H]; [congruence|]. unfold states in W. cbn [List.length Nat.eqb negb] in W. destruct (cty_numerical (cr_type k) (join (lit "|") [a])) as [v|] eqn:Nv; [|eauto].
        exfalso. apply (C16_numerical_value _ _ _ v (B _ Ik)) in Nv. unfold value_denotes in Nv. rewrite E in Nv. apply (H v Nv).
      * unfold states in W. cbn [List.length Nat.eqb negb] in W. eauto.
  - intros i k C E. pose proof C as [_ [C1 _]]. pose proof (nth_error_In _ _ C1) as Ik. specialize (W i k C). rewrite E in W. cbn [negb andb] in W. split.
    + intros v D. rewrite (proj2 (C16_numerical_value _ _ _ v (B _ Ik)) D) in W. exists (set_state p i v). split; [exact W|]. rewrite <- (int_id v (Iv i k v C D)) at 2. apply (set_state_set p i k v C1).
    + intros H. destruct (cty_numerical (cr_type k) _) as [v|] eqn:Nv; [|eauto]. exfalso. apply (C16_numerical_value _ _ _ v (B _ Ik)) in Nv. apply (H v Nv).
  - intros C. run_entry. unfold h_set_state, states. cbn [arg nth_error obind]. rewrite Ha. unfold set_lexical. cbn [arg nth_error obind]. fold (criteria p). rewrite (find_none _ _ C). reflexivity.
Qed.
Print Assumptions C71_set_names.

(** Several states of an inclusive criterion: their values are joined. *)
Theorem C71_set_several : forall su p n i k states ws, p_obtainable p -> is_called p n i k -> cty_incl (cr_type k) = true ->
  Forall2 (fun s w => In (s, w) (cty_map (cr_type k))) states ws -> Forall (fun s => s <> [] /\ ~ In "|"%char s) states ->
  convertTo t_uint32 (hd [] states) = None -> states <> [] ->
  exists p', asks su p "setCriterionState" (n :: states) = Ok (done_answer, p') /\ state_set p p' i (fold_left Z.lor ws 0%Z).
Proof.
  intros su p n i k states ws Ob C E F G Hd Ne. destruct states as [|a more]; [congruence|]. cbn [hd] in Hd.
  destruct (C71_set_names su p n a more Ob Hd) as [_ [W _]]. apply (W i k C E). unfold value_denotes. rewrite E. exists (a :: more), ws. split; [|split; auto].
  change (lit "|") with ["|"%char]. apply runs_join; [simpl; auto|]. eapply Forall_impl; [|exact G]. intros s [G1 G2]. split; auto. intros c Hc [<-|[]]. auto.
Qed.
Print Assumptions C71_set_several.

(** The state of a criterion stays the last one set: through the start, the applications, the creation of other criteria, the states of
    others, the commands of the remote server. *)
Theorem C71_state_kept : forall vs p answers p' n v, psession p vs = Ok (answers, p') -> Forall (fun e => ~ p_sets n e) vs -> state_is p n v -> state_is p' n v.
Proof.
  induction vs as [|e vs IH]; intros p answers p' n v H F S0; cbn [psession] in H; [inversion H; subst; auto|].
  inversion F as [|? ? F1 F2]; subst. destruct (pstep p e) as [[a p1]| | |] eqn:E; try discriminate. cbn [obind fst snd] in H.
  destruct (psession p1 vs) as [[l p2]| | |] eqn:E2; try discriminate. cbn [obind fst snd] in H. inversion H; subst.
  apply (IH _ _ _ _ _ E2 F2). apply (change_keeps _ _ _ _ _ (pstep_view _ _ _ _ E) F1 S0).
Qed.
Print Assumptions C71_state_kept.

(** ** Policies *)

(** A policy is set before the start, from the text of a boolean, and only this policy; then it is the one given.  Once started it is
    refused.  Another text is answered with the usage. *)
Theorem C71_policy : forall su set get policy p a, policy_commands set get policy ->
  (forall b, bool_text a b -> pl_started p = false ->
     exists p', asks su p set [a] = Ok (done_answer, p') /\ same_but_policies p p' /\ po_uri (pl_policies p') = po_uri (pl_policies p)
       /\ (forall set' get' policy', policy_commands set' get' policy' -> asks su p' get' [] = Ok (Answer (true_or_false (if String.eqb get get' then b else policy' (pl_policies p))) true, p')))
  /\ (forall b, bool_text a b -> pl_started p = true -> exists t, asks su p set [a] = Ok (Answer t false, p))
  /\ ((forall b, ~ bool_text a b) -> asks su p set [a] = Ok (Answer (lit set ++ lit " true|false") false, p)).
Proof.
  intros su set get policy p a C.
  assert (forall b, bool_text a b <-> convert_bool a = Some b) as Cb.
  { intros b. unfold bool_text, convert_bool. destruct b; cbn [map In]; split.
    - intros [<-|[<-|[<-|[]]]]; reflexivity.
    - destruct (str_eqb a (lit "0") || str_eqb a (lit "FALSE") || str_eqb a (lit "false")); [discriminate|].
      destruct (str_eqb a (lit "1")) eqn:E1; [apply str_eqb_eq in E1; auto|]. destruct (str_eqb a (lit "TRUE")) eqn:E2; [apply str_eqb_eq in E2; auto|].
      destruct (str_eqb a (lit "true")) eqn:E3; [apply str_eqb_eq in E3; auto|]. discriminate.
    - intros [<-|[<-|[<-|[]]]]; reflexivity.
    - destruct (str_eqb a (lit "0")) eqn:E1; [apply str_eqb_eq in E1; auto|]. destruct (str_eqb a (lit "FALSE")) eqn:E2; [apply str_eqb_eq in E2; auto|].
      destruct (str_eqb a (lit "false")) eqn:E3; [apply str_eqb_eq in E3; auto|]. cbn [orb]. destruct (_ || _); discriminate. }
  assert (forall q get' policy' set', policy_commands set' get' policy' -> asks su q get' [] = Ok (Answer (true_or_false (policy' (pl_policies q))) true, q)) as G.
  { intros q get' policy' set' C'. inversion C'; subst; run_entry; unfold h_get_policy; cbn [obind fst snd]; unfold true_or_false; match goal with |- context [if ?b then _ else _] => destruct b; reflexivity end. }
  split; [|split].
  - intros b Hb St. apply Cb in Hb.
    assert (exists p', asks su p set [a] = Ok (done_answer, p') /\ same_but_policies p p' /\ po_uri (pl_policies p') = po_uri (pl_policies p)
      /\ (forall set' get' policy', policy_commands set' get' policy' -> policy' (pl_policies p') = if String.eqb get get' then b else policy' (pl_policies p))) as [p' [A1 [A2 [A3 A4]]]].
    { inversion C; subst; eexists; (split; [run_entry; unfold h_set_policy; cbn [arg nth_error obind]; rewrite Hb, St; reflexivity|]); (split; [repeat split|]); (split; [reflexivity|]); intros set' get' policy' C'; inversion C'; subst; reflexivity. }
    exists p'. split; auto. split; auto. split; auto. intros set' get' policy' C'. rewrite (G p' get' policy' set' C'). rewrite (A4 _ _ _ C'). reflexivity.
  - intros b Hb St. apply Cb in Hb. inversion C; subst; eexists; run_entry; unfold h_set_policy; cbn [arg nth_error obind]; rewrite Hb, St; reflexivity.
  - intros N. destruct (convert_bool a) as [b|] eqn:Hb; [exfalso; apply (N b), Cb; reflexivity|]. inversion C; subst; run_entry; unfold h_set_policy; cbn [arg nth_error obind]; rewrite Hb; reflexivity.
Qed.
Print Assumptions C71_policy.

(** getSchemaUri never answers the directory that was set: its text is replaced by "Done". *)
Theorem C71_schema_uri_refuted : exists su p', asks su p_new "setSchemaUri" [lit "/usr/share/schemas"] = Ok (done_answer, p')
  /\ po_uri (pl_policies p') = lit "/usr/share/schemas" /\ asks su p' "getSchemaUri" [] = Ok (Answer (lit "Done") true, p').
Proof. exists (Around (fun _ _ => LNothing) [] []). eexists. split; [vm_compute; reflexivity|]. split; vm_compute; reflexivity. Qed.
Print Assumptions C71_schema_uri_refuted.

(** ** The start, and after *)

(** A first start on good files: done, the framework is started with the criteria created, their states kept, under the same policies. *)
Theorem C71_start : forall y su p, good_start y p su -> pl_loaded p = false ->
  exists m p', asks su p "start" [] = Ok (done_answer, p') /\ p_running y m p' /\ started y m
    /\ pl_policies p' = pl_policies p /\ pl_open p' = pl_open p
    /\ map cr_name (criteria p') = map cr_name (criteria p) /\ map cr_type (criteria p') = map cr_type (criteria p) /\ map cr_state (criteria p') = map cr_state (criteria p).
Proof.
  intros y su p [Sy [given [al [s [F [A L]]]]]] Lo. destruct (start_up_inv y given al (criteria p) s Sy A L) as [bb [m [_ [H2 [H3 H4]]]]].
  exists m, (Plat y m true true (pl_policies p) (pl_open p)). split.
  - run_entry. unfold h_start. rewrite Lo. fold (criteria p). rewrite F. cbn [load_instance]. rewrite H4. reflexivity.
  - split; [repeat split|]. split; [exists al, (criteria p), s, bb; auto|]. split; auto. split; auto. unfold criteria at 1 3 5. cbn [pl_mgr]. rewrite (start_up_crits _ _ _ _ _ _ H4).
    unfold crits_reset. rewrite !map_map. repeat split; apply map_ext; reflexivity.
Qed.
Print Assumptions C71_start.

(** A start on files that cannot be read, or whose settings are refused, or without its remote server: the error is answered, the platform is
    not started, the criteria and the policies are kept, and the policies can still be changed. *)
Theorem C71_start_failed : forall su p i, pl_loaded p = false -> load_instance (criteria p) (su_files su (pl_policies p) (criteria p)) = Ok i ->
  match su_files su (pl_policies p) (criteria p) with LDone _ _ _ _ server => server = false | _ => True end ->
  exists p', asks su p "start" [] = Ok (Answer (su_error su) false, p') /\ pl_started p' = false /\ pl_policies p' = pl_policies p
    /\ map cr_name (criteria p') = map cr_name (criteria p) /\ map cr_type (criteria p') = map cr_type (criteria p) /\ map cr_state (criteria p') = map cr_state (criteria p).
Proof.
  intros su p i Lo Hi N. exists (Plat (in_sys i) (in_mgr i) true false (pl_policies p) (pl_open p)).
  assert (in_started i = false) as Si.
  { destruct (su_files su _ _) as [|y al s|y g al s sv]; cbn [load_instance] in Hi; try (inversion Hi; subst; reflexivity).
    destruct (start_up _ _ _ _ _); try discriminate. cbn [obind] in Hi. inversion Hi; subst. auto. }
  split; [run_entry; unfold h_start; rewrite Lo; fold (criteria p); rewrite Hi; cbn [obind fst snd]; rewrite Si; reflexivity|].
  split; auto. split; auto. unfold criteria at 1 3 5. cbn [pl_mgr]. apply load_instance_change in Hi.
  destruct Hi as [->| ->]; auto. unfold crits_reset. rewrite !map_map. repeat split; apply map_ext; reflexivity.
Qed.
Print Assumptions C71_start_failed.

(** Once started, every request and every command of the remote server is answered, and the framework stays in a state that commands
    reach: what the other chapters prove of such states holds. *)
Theorem C71_session : forall y vs m p, system_ok y -> reachable y m -> p_running y m p -> Forall after_start vs ->
  exists answers m' p', psession p vs = Ok (answers, p') /\ List.length answers = List.length vs /\ p_running y m' p' /\ reachable y m'.
Proof.
  intros y vs m p Sy R Ru F. revert m p R Ru. induction F as [|v vs Fv F IH]; intros m p R Ru; [exists [], m, p; cbn [psession]; auto|].
  assert (exists a m' p', pstep p v = Ok (a, p') /\ p_running y m' p' /\ reachable y m') as [a [m' [p' [E [Ru' R']]]]].
  { pose proof (reachable_ok y m Sy R) as [Mo _]. destruct Ru as [Es [Em [St Lo]]].
    assert (forall c, (forall d n t, c <> CSetRule d n t) -> exists b m', step (pl_sys p) (pl_mgr p) c = Ok (b, m') /\ p_running y m' (with_state p m') /\ reachable y m') as Sx.
    { intros c Nr. rewrite Es, Em. destruct (step_ok y m c Sy Mo) as [[b [m' [E1 _]]]|[_ [d [n [t Ec]]]]]; [|exfalso; eapply Nr; eauto]. exists b, m'. split; auto. split; [repeat split; auto|]. eapply reachable_step; eauto. }
    assert (p_running y m p) as Ru by (repeat split; auto).
    assert (forall i v, exists m', p_running y m' (set_state p i v) /\ reachable y m') as Ss.
    { intros i x. destruct (Sx (CCriterion i (to_ctype t_int32 x)) ltac:(discriminate)) as [b [m' [E1 [E2 E3]]]]. exists m'. split; auto. cbn [step] in E1. inversion E1; subst. exact E2. }
    destruct v as [su q|c]; cbn [pstep].
    - destruct (pl_open p) eqn:Op; [|exists (Answer [] false), m, p; auto]. cbn [after_start] in Fv. unfold pprocess.
      destruct (pfind (rq_command q)) as [e|] eqn:Fe; [|eexists; exists m, p; split; [reflexivity|auto]].
      destruct (str_eqb _ _) eqn:Eh; [eexists; exists m, p; split; [reflexivity|auto]|]. destruct (_ <? _) eqn:Lt; [eexists; exists m, p; split; [reflexivity|auto]|]. apply Nat.ltb_ge in Lt.
      assert (exists r m' p', pe_do e su (rq_args q) p = Ok (r, p') /\ p_running y m' p' /\ reachable y m') as [r [m' [p' [D1 [D2 D3]]]]]; [|rewrite D1; cbn [obind fst snd]; eexists; exists m', p'; split; [reflexivity|auto]].
      apply pfind_In in Fe. destruct Fe as [I N]. unfold ptable in I. cbn [In] in I.
      repeat (destruct I as [I|I]); try contradiction; subst e; cbn [pe_do entry_of pe_min pe_name] in *; try (exfalso; apply Fv; rewrite <- N; unfold for_before; cbn [map In]; tauto).
      + exists RDone, m, p. auto.
      + eexists; exists m; eexists. split; [reflexivity|]. split; [repeat split; auto|auto].
      + unfold h_set_state. destruct (rq_args q) as [|n [|s more]]; try (simpl in Lt; lia). cbn [arg nth_error obind]. destruct (convertTo t_uint32 s) as [x|].
        * destruct (crits_find _ n) as [i|]; [|exists (no_criterion n), m, p; auto]. destruct (Ss i x) as [m' [S1 S2]]. exists RDone, m', (set_state p i x). auto.
        * unfold set_lexical. cbn [arg nth_error obind]. destruct (crits_find _ n) as [i|] eqn:Fi; [|exists (no_criterion n), m, p; auto].
          apply find_first in Fi. destruct Fi as [k [Fk _]]. rewrite Fk. destruct (_ && _); [eexists; exists m, p; split; [reflexivity|auto]|].
          destruct (cty_numerical _ _) as [x|]; [|eexists; exists m, p; split; [reflexivity|auto]]. destruct (Ss i x) as [m' [S1 S2]]. exists RDone, m', (set_state p i x). auto.
      + unfold h_apply. destruct (Sx (CApply (su_need su)) ltac:(discriminate)) as [b [m' [E1 [E2 E3]]]]. rewrite E1. cbn [obind snd]. exists RDone, m', (with_state p m'). auto.
      + unfold h_set_policy. destruct (rq_args q) as [|s more]; [simpl in Lt; lia|]. cbn [arg nth_error obind]. rewrite St. destruct (convert_bool s); eexists; exists m, p; (split; [reflexivity|auto]).
      + eexists; exists m, p. split; [reflexivity|auto].
      + unfold h_set_policy. destruct (rq_args q) as [|s more]; [simpl in Lt; lia|]. cbn [arg nth_error obind]. rewrite St. destruct (convert_bool s); eexists; exists m, p; (split; [reflexivity|auto]).
      + eexists; exists m, p. split; [reflexivity|auto].
      + unfold h_set_policy. destruct (rq_args q) as [|s more]; [simpl in Lt; lia|]. cbn [arg nth_error obind]. rewrite St. destruct (convert_bool s); eexists; exists m, p; (split; [reflexivity|auto]).
      + eexists; exists m, p. split; [reflexivity|auto].
      + eexists; exists m, p. split; [reflexivity|auto].
      + unfold h_set_uri. destruct (rq_args q) as [|s more]; [simpl in Lt; lia|]. cbn [arg nth_error obind]. eexists; exists m; eexists. split; [reflexivity|]. split; [repeat split; auto|auto].
    - cbn [after_start] in Fv. rewrite St. destruct (tuning_command c); cbn [andb]; [|exists (Answer [] false), m, p; auto].
      destruct (Sx c Fv) as [b [m' [E1 [E2 E3]]]]. rewrite E1. cbn [obind fst snd]. eexists; exists m', (with_state p m'). split; [reflexivity|auto]. }
  destruct (IH m' p' R' Ru') as [l [m2 [p2 [C [Ll [Ru2 R2]]]]]]. exists (a :: l), m2, p2. cbn [psession]. rewrite E. cbn [obind fst snd]. rewrite C. cbn [obind fst snd List.length]. auto.
Qed.
Print Assumptions C71_session.

(** The request "applyConfigurations" is the application of the configurations: where none is wanted (the tuning mode), nothing
    changes but the answer is the same. *)
Theorem C71_apply : forall su p y m, system_ok y -> reachable y m -> p_running y m p ->
  exists m', step y m (CApply (su_need su)) = Ok (true, m') /\ asks su p "applyConfigurations" [] = Ok (done_answer, Plat y m' true true (pl_policies p) (pl_open p)).
Proof.
  intros su p y m Sy R [Es [Em [St Lo]]]. pose proof (reachable_ok y m Sy R) as [Mo _]. destruct (step_ok y m (CApply (su_need su)) Sy Mo) as [[b [m' [E1 _]]]|[_ [d [n [t Ec]]]]]; [|discriminate Ec].
  assert (b = true) as -> by (cbn [step] in E1; destruct (apply_configurations _ _ _); try discriminate; inversion E1; auto). exists m'. split; auto.
  run_entry. unfold h_apply. rewrite Es, Em, E1. cbn [obind snd]. unfold with_state. rewrite Es, St, Lo. reflexivity.
Qed.
Print Assumptions C71_apply.

(** ** Refusals *)

(** A command that does not exist, or that lacks arguments, changes nothing and is answered by an error; every other one names itself in
    the help. *)
Theorem C71_refused : forall su p q, (forall e, In e ptable -> pe_name e = rq_command q -> List.length (rq_args q) < pe_min e) ->
  exists t, pprocess su p q = Ok (Answer t false, p).
Proof.
  intros su p q H. unfold pprocess. destruct (pfind (rq_command q)) as [e|] eqn:F; [|eauto]. apply pfind_In in F. destruct F as [I N]. specialize (H e I N).
  destruct (str_eqb (rq_command q) (lit "help")) eqn:Eh.
  - apply str_eqb_eq in Eh. rewrite Eh in N. exfalso. unfold ptable in I. cbn [In] in I. repeat (destruct I as [I|I]); try contradiction; subst e; try discriminate N. simpl in H. lia.
  - rewrite (proj2 (Nat.ltb_lt _ _) H). eauto.
Qed.
Print Assumptions C71_refused.

(** ** What is not so *)

Definition no_files : surroundings := Around (fun _ _ => LNothing) (lit "no such file") [].
Definition ev (command : string) (args : list string) : pevent := EvRequest no_files (Request (lit command) (map lit args)).
Definition answers_of (p : plat) (vs : list pevent) : outcome (list RemoteModel.answer) := omap fst (psession p vs).

(** A state whose name is a number is not the one that its name sets: the number is taken first. *)
Theorem C71_number_name_refuted : exists p' kr, psession p_new [ev "createExclusiveSelectionCriterionFromStateList" ["Mode"; "1"; "0"]%string; ev "setCriterionState" ["Mode"; "1"]%string]
    = Ok ([done_answer; done_answer], p')
  /\ criteria p' = [kr] /\ cty_atomic (cr_type kr) (lit "1") = Some 0%Z /\ cr_state kr = 1%Z /\ cty_formatted (cr_type kr) (cr_state kr) = lit "0".
Proof. eexists. eexists. split; [vm_compute; reflexivity|]. split; [reflexivity|]. split; [|split]; vm_compute; reflexivity. Qed.
Print Assumptions C71_number_name_refuted.

(** A number that is no state of the criterion is taken, and the states that follow it are not looked at. *)
Theorem C71_any_number_refuted : exists p' kr, psession p_new [ev "createExclusiveSelectionCriterionFromStateList" ["Mode"; "Call"; "Normal"]%string; ev "setCriterionState" ["Mode"; "7"; "Nothing"]%string]
    = Ok ([done_answer; done_answer], p')
  /\ criteria p' = [kr] /\ cr_state kr = 7%Z /\ cty_literal (cr_type kr) 7 = None.
Proof. eexists. eexists. split; [vm_compute; reflexivity|]. split; [reflexivity|]. split; vm_compute; reflexivity. Qed.
Print Assumptions C71_any_number_refuted.

(** Two criteria can be created with the same name; only the first can then be set. *)
Theorem C71_same_name_refuted : exists p' k1 k2, psession p_new [ev "createExclusiveSelectionCriterionFromStateList" ["Mode"; "Call"; "Normal"]%string;
      ev "createExclusiveSelectionCriterionFromStateList" ["Mode"; "Day"; "Night"]%string; ev "setCriterionState" ["Mode"; "Night"]%string; ev "setCriterionState" ["Mode"; "Normal"]%string]
    = Ok ([done_answer; done_answer; Answer (lit "Unable to find lexical state ""Night"" in criteria Mode") false; done_answer], p')
  /\ criteria p' = [k1; k2] /\ cr_name k1 = cr_name k2 /\ cr_state k1 = 1%Z /\ cr_state k2 = 0%Z.
Proof. eexists. eexists. eexists. split; [vm_compute; reflexivity|]. split; [reflexivity|]. split; [|split]; vm_compute; reflexivity. Qed.
Print Assumptions C71_same_name_refuted.

(** The help has a line for every command, with its usage and its description, blanks between. *)
Theorem C71_help : forall su p args, exists text, asks su p "help" args = Ok (Answer text true, p)
  /\ forall e, In e ptable -> exists before after blanks, text = before ++ pe_name e ++ lit " " ++ pe_help e ++ repeat " "%char blanks ++ lit "=> " ++ pe_about e ++ [ascii_of_nat 10] ++ after
       /\ (before = [] \/ exists b, before = b ++ [ascii_of_nat 10]).
Proof.
  intros su p args. exists phelp. split; [reflexivity|]. intros e I. apply in_split in I. destruct I as [l1 [l2 I]]. unfold phelp.
  set (w := fold_left Nat.max (map (fun e => List.length (pusage e)) ptable) 0). rewrite I. rewrite flat_map_app. cbn [flat_map].
  set (line := fun e0 => pusage e0 ++ repeat " "%char (w + 5 - List.length (pusage e0)) ++ lit "=> " ++ pe_about e0 ++ [ascii_of_nat 10]).
  exists (flat_map line l1), (flat_map line l2), (w + 5 - List.length (pusage e)). split.
  - unfold line at 2, pusage. rewrite <- !app_assoc. reflexivity.
  - destruct l1 as [|e0 l0 _] using rev_ind; [left; reflexivity|]. right. rewrite flat_map_app. cbn [flat_map]. rewrite app_nil_r. unfold line at 2. rewrite !app_assoc. eexists. reflexivity.
Qed.
Print Assumptions C71_help.

(** The help describes the command for exclusive criteria as that for inclusive ones. *)
Theorem C71_help_refuted : exists before after blanks kr p',
  phelp = before ++ lit "createExclusiveSelectionCriterion <name> <nbStates>" ++ repeat " "%char blanks ++ lit "=> Create inclusive selection criterion" ++ ascii_of_nat 10 :: after
  /\ asks no_files p_new "createExclusiveSelectionCriterion" [lit "Mode"; lit "2"] = Ok (done_answer, p') /\ criteria p' = [kr] /\ cty_incl (cr_type kr) = false.
Proof.
  exists (firstn 462 phelp), (skipn 572 phelp), 19. eexists. eexists. split; [vm_compute; reflexivity|]. split; [vm_compute; reflexivity|]. split; reflexivity.
Qed.
Print Assumptions C71_help_refuted.

(** ** The cases on a platform with the demo structure *)

Definition demo_files : surroundings := Around (fun _ => cd_files) [] [].
Definition pd_create : list pevent :=
  [ev "createExclusiveSelectionCriterionFromStateList" ["Mode"; "Idle"; "Call"; "Normal"]; ev "createInclusiveSelectionCriterion" ["Devices"; "0x3"]]%string.
Definition pd_after (vs : list pevent) : plat := match psession p_new vs with Ok (_, p) => p | _ => p_new end.
Definition pd_before : plat := pd_after pd_create.
Definition pd_start : pevent := EvRequest demo_files (Request (lit "start") []).
Definition pd_running : plat := pd_after (pd_create ++ [pd_start]).
Definition pd_at (p : plat) (i : nat) : criterion := nth i (criteria p) (cr_new [] (cty_new false)).

Example C71_create_list_nonvacuous :
  makeable (CCrit (Some (lit "Mode")) false (Some [lit "Idle"; lit "Call"; lit "Normal"])) /\ ~ makeable (CCrit (Some (lit "Devices")) true (Some [lit "Ear"; lit "none"]))
  /\ answers_of p_new [ev "createInclusiveSelectionCriterionFromStateList" ["Devices"; "Ear"; "none"]; ev "createExclusiveSelectionCriterionFromStateList" ["Mode"; "Idle"; "Idle"]]%string
     = Ok [Answer (lit "Unable to add value: none: Rejecting value pair association (literal already present): 0x2 - none for Selection Criterion Type ") false;
           Answer (lit "Unable to add value: Idle: Rejecting value pair association (literal already present): 0x1 - Idle for Selection Criterion Type ") false]
  /\ map (fun k => (cr_name k, cty_map (cr_type k))) (criteria pd_before)
     = [(lit "Mode", [(lit "Call", 1%Z); (lit "Idle", 0%Z); (lit "Normal", 2%Z)]); (lit "Devices", [(lit "State_0x1", 1%Z); (lit "State_0x2", 2%Z); (lit "State_0x4", 4%Z); (lit "none", 0%Z)])].
Proof.
  split; [|split; [|split]].
  - exists (lit "Mode"), [lit "Idle"; lit "Call"; lit "Normal"]. split; auto. split; auto. split; [|discriminate]. repeat constructor; simpl; intuition discriminate.
  - intros [n [vs [_ [E [_ H]]]]]. cbn [cc_values] in E. injection E as <-. destruct (H eq_refl) as [_ N]. apply N. simpl. auto.
  - vm_compute. reflexivity.
  - vm_compute. reflexivity.
Qed.

Example C71_create_count_nonvacuous : plain_number (lit "0x3") (Z.of_nat 3) /\ numbered_criterion true (lit "Devices") 3 (pd_at pd_before 1).
Proof.
  split.
  - right. exists (lit "3"), [3%Z]. split; auto. split; [discriminate|]. split; [|reflexivity]. constructor; [left; split; [lia|reflexivity]|constructor].
  - destruct (C71_create_count_partial true no_files (pd_after [hd pd_start pd_create]) (lit "Devices") (lit "0x3") 3) as [kr [p' [A [_ [C D]]]]].
    + right. exists (lit "3"), [3%Z]. split; auto. split; [discriminate|]. split; [|reflexivity]. constructor; [left; split; [lia|reflexivity]|constructor].
    + lia.
    + assert (asks no_files (pd_after [hd pd_start pd_create]) (count_command true) [lit "Devices"; lit "0x3"] = Ok (done_answer, pd_before)) as A' by (vm_compute; reflexivity).
      rewrite A' in A. injection A as <-. unfold pd_at. rewrite C. exact D.
Qed.

Lemma pd_obtainable : p_obtainable pd_before.
Proof. exists pd_create. eexists. vm_compute. reflexivity. Qed.

Lemma pd_mode : is_called pd_before (lit "Mode") 0 (pd_at pd_before 0).
Proof. split; [discriminate|]. split; [reflexivity|]. split; [reflexivity|]. intros j k' Hj. lia. Qed.
Lemma pd_devices : is_called pd_before (lit "Devices") 1 (pd_at pd_before 1).
Proof. split; [discriminate|]. split; [reflexivity|]. split; [reflexivity|]. intros j k' Hj H. assert (j = 0) as -> by lia. injection H as <-. discriminate. Qed.

Example C71_set_nonvacuous :
  p_obtainable pd_before /\ is_called pd_before (lit "Mode") 0 (pd_at pd_before 0) /\ is_called pd_before (lit "Devices") 1 (pd_at pd_before 1) /\ not_called pd_before (lit "Other")
  /\ convertTo t_uint32 (lit "4294967295") = Some 4294967295%Z /\ as_int 4294967295 = (-1)%Z /\ convertTo t_uint32 (lit "Normal") = None
  /\ answers_of pd_before [ev "setCriterionState" ["Mode"; "Normal"]; ev "setCriterionState" ["Mode"; "Normal"; "Call"]; ev "setCriterionState" ["Mode"; "Night"];
                           ev "setCriterionState" ["Devices"; "State_0x1"; "State_0x4"]; ev "setCriterionState" ["Other"; "1"]]%string
     = Ok [done_answer; Answer (lit "Exclusive criterion Mode can only have one state") false; Answer (lit "Unable to find lexical state ""Night"" in criteria Mode") false;
           done_answer; Answer (lit "Unable to retrieve selection criterion: Other") false]
  /\ map cr_state (criteria (pd_after (pd_create ++ [ev "setCriterionState" ["Mode"; "Normal"]; ev "setCriterionState" ["Devices"; "State_0x1"; "State_0x4"]]%string))) = [2%Z; 5%Z].
Proof.
  split; [exact pd_obtainable|]. split; [exact pd_mode|]. split; [exact pd_devices|].
  split; [intros k [<-|[<-|[]]]; discriminate|]. split; [vm_compute; reflexivity|]. split; [reflexivity|]. split; [vm_compute; reflexivity|]. split; vm_compute; reflexivity.
Qed.

Example C71_set_several_nonvacuous : exists p', asks no_files pd_before "setCriterionState" [lit "Devices"; lit "State_0x1"; lit "State_0x4"] = Ok (done_answer, p') /\ state_set pd_before p' 1 5.
Proof.
  apply (C71_set_several no_files pd_before (lit "Devices") 1 (pd_at pd_before 1) [lit "State_0x1"; lit "State_0x4"] [1%Z; 4%Z]); [exact pd_obtainable|exact pd_devices|reflexivity| | |vm_compute; reflexivity|discriminate].
  - constructor; [vm_compute; tauto|]. constructor; [vm_compute; tauto|constructor].
  - repeat constructor; try discriminate; vm_compute; intuition discriminate.
Qed.

Example C71_state_kept_nonvacuous : state_is (pd_after (pd_create ++ [ev "setCriterionState" ["Mode"; "2"]%string])) (lit "Mode") 2
  /\ exists answers p', psession (pd_after (pd_create ++ [ev "setCriterionState" ["Mode"; "2"]%string]))
       [pd_start; ev "setCriterionState" ["Devices"; "3"]%string; ev "applyConfigurations" []; EvTune (CTuning true []); EvTune (CCreateDomain (lit "D"))] = Ok (answers, p')
     /\ map an_ok answers = [true; true; true; true; true].
Proof.
  split; [|eexists; eexists; split; vm_compute; reflexivity]. exists 0. eexists. split; [|shelve]. split; [discriminate|]. split; [reflexivity|]. split; [reflexivity|]. intros j k' Hj. lia.
  Unshelve. vm_compute. reflexivity.
Qed.

Example C71_policy_nonvacuous :
  policy_commands "setFailureOnMissingSubsystem" "getMissingSubsystemPolicy" po_missing /\ bool_text (lit "0") false /\ pl_started pd_before = false /\ pl_started pd_running = true
  /\ answers_of pd_before [ev "setFailureOnMissingSubsystem" ["0"]; ev "getMissingSubsystemPolicy" []; ev "getFailedSettingsLoadPolicy" []; ev "setFailureOnMissingSubsystem" ["no"]]%string
     = Ok [done_answer; Answer (lit "false") true; Answer (lit "true") true; Answer (lit "setFailureOnMissingSubsystem true|false") false]
  /\ answers_of pd_running [ev "setFailureOnMissingSubsystem" ["0"]]%string = Ok [Answer (lit "Can not set missing subsystem policy while running") false].
Proof. split; [constructor|]. split; [vm_compute; tauto|]. split; [reflexivity|]. split; [vm_compute; reflexivity|]. split; vm_compute; reflexivity. Qed.

Lemma pd_good : good_start demo pd_before demo_files.
Proof.
  split; [apply demo_ok|]. exists (fun _ => None), true, (Domains [] [] 0). split; [reflexivity|]. split; [intros o e x bytes _ _ H; discriminate H|].
  split; [|split; [apply no_domains_ok|split; [intros d c r []|vm_compute; reflexivity]]].
  intros i k H. pose proof (obtainable_built _ pd_obtainable k (nth_error_In _ _ H)) as B. apply (C16_one_to_one _ _ B).
Qed.

Example C71_start_nonvacuous : good_start demo pd_before demo_files /\ pl_loaded pd_before = false
  /\ asks demo_files pd_before "start" [] = Ok (done_answer, pd_running) /\ p_running demo (pl_mgr pd_running) pd_running /\ reachable demo (pl_mgr pd_running).
Proof.
  split; [exact pd_good|]. split; [reflexivity|].
  assert (asks demo_files pd_before "start" [] = Ok (done_answer, pd_running)) as E by (vm_compute; reflexivity). split; [exact E|].
  destruct (C71_start demo demo_files pd_before pd_good eq_refl) as [m [p' [A [R [St _]]]]]. rewrite E in A. injection A as <-. destruct R as [R1 [R2 R3]]. subst m.
  split; [split; [exact R1|split; [reflexivity|exact R3]]|]. exists (pl_mgr pd_running), [], []. split; [exact St|reflexivity].
Qed.

Example C71_start_failed_nonvacuous : pl_loaded pd_before = false /\ answers_of pd_before [ev "start" []; ev "setValidateSchemasOnStart" ["true"]%string; ev "getValidateSchemasOnStart" []]
  = Ok [Answer (lit "no such file") false; done_answer; Answer (lit "true") true].
Proof. split; [reflexivity|vm_compute; reflexivity]. Qed.

Example C71_session_nonvacuous : Forall after_start [ev "setCriterionState" ["Mode"; "Call"]%string; ev "applyConfigurations" []; EvTune (CTuning true []); ev "getSchemaUri" []; ev "exit" []; ev "applyConfigurations" []]
  /\ omap (map an_ok) (answers_of pd_running [ev "setCriterionState" ["Mode"; "Call"]%string; ev "applyConfigurations" []; EvTune (CTuning true []); ev "getSchemaUri" []; ev "exit" []; ev "applyConfigurations" []])
     = Ok [true; true; true; true; true; false].
Proof.
  split; [|vm_compute; reflexivity]. repeat constructor; try (cbn; unfold for_before; cbn [map In]; intros H; repeat (destruct H as [H|H]; [discriminate H|]); exact H). intros d n t H. discriminate H.
Qed.

Example C71_refused_nonvacuous : answers_of p_new [ev "begin" []; ev "setCriterionState" ["Mode"]%string]
  = Ok [Answer (lit "Command not found!" ++ ascii_of_nat 10 :: lit "Use ""help"" to show available commands") false;
        Answer (lit "Not enough arguments supplied" ++ ascii_of_nat 10 :: lit "Usage:" ++ ascii_of_nat 10 :: lit "setCriterionState <name> <state>") false].
Proof. vm_compute. reflexivity. Qed.
