(** Proofs about the test platform. *)
From Coq Require Import List Arith ZArith Bool Ascii String Lia Permutation.
From Verif Require Import Base BaseProofs TextModel TextSpec TextProofs CriterionModel CriterionSpec CriterionProofs CriterionProps RuleSpec RuleProofs TreeModel TreeSpec SyncModel DomainModel MgrModel MgrSpec MgrProofs ValueSpec IntProofs LoadModel LoadSpec RemoteModel CommandModel CapiModel CapiSpec CapiProofs PlatModel PlatSpec.
Import ListNotations.
Local Open Scope nat_scope.

(** ** The states of a new criterion *)

Lemma add_states_values : forall incl vs i t, (0 <= i)%Z -> (incl = true -> i + Z.of_nat (List.length vs) <= 31)%Z ->
  match add_states incl i vs t with
  | Ok (inl t') => add_values incl i vs t = Ok t'
  | Ok (inr _) => add_values incl i vs t = Err
  | Err => False
  | Abort => add_values incl i vs t = Abort
  | UB => add_values incl i vs t = UB
  end.
Proof.
  intros incl. induction vs as [|v vs IH]; intros i t I0 L; cbn [add_states add_values]; auto.
  rewrite (max_shift i I0). destruct (incl && (31 <=? i)%Z) eqn:B.
  { apply andb_true_iff in B. destruct B as [B1 B2]. apply Z.leb_le in B2. specialize (L B1). simpl List.length in L. lia. }
  destruct (cty_add t _ v) as [t'| | |]; cbn [obind]; auto. apply IH; [lia|]. intros E. specialize (L E). simpl List.length in L. lia.
Qed.

Lemma to_int_range : forall v, is_int (to_ctype t_int32 v).
Proof.
  intros v. unfold to_ctype, t_int32, is_int. cbn [ct_signed ct_bytes andb]. cbv zeta. change (2 ^ (8 * Z.of_nat 4))%Z with 4294967296%Z. change (4294967296 / 2)%Z with 2147483648%Z.
  pose proof (Z.mod_pos_bound v 4294967296 eq_refl). destruct (_ <=? _)%Z eqn:E; [apply Z.leb_le in E|apply Z.leb_gt in E]; lia.
Qed.

Lemma add_states_built : forall incl vs i t t', (0 <= i)%Z -> built incl t -> add_states incl i vs t = Ok (inl t') -> built incl t'.
Proof.
  intros incl. induction vs as [|v vs IH]; intros i t t' I0 B H; cbn [add_states] in H; [inversion H; subst; auto|].
  destruct (incl && (31 <=? i)%Z) eqn:O; [discriminate|]. destruct (cty_add t _ v) as [t1| | |] eqn:E; try discriminate.
  apply (IH (i + 1)%Z t1 t'); auto; [lia|]. eapply built_add; [exact B| |exact E]. destruct incl.
  - simpl in O. apply Z.leb_gt in O. rewrite Z.shiftl_1_l. split; [pose proof (Z.pow_nonneg 2 i); lia|].
    assert (2 ^ i < 2 ^ 31)%Z by (apply Z.pow_lt_mono_r; lia). lia.
  - apply to_int_range.
Qed.

Definition p_built (p : plat) : Prop := forall k, In k (criteria p) -> built (cty_incl (cr_type k)) (cr_type k).

(** ** The dispatch *)

Lemma ask_entry : forall su p name args e, pfind name = Some e -> str_eqb name (lit "help") = false -> (List.length args <? pe_min e) = false ->
  pprocess su p (Request name args)
  = do x <- pe_do e su args p;
    Ok (match fst x with
        | RDone => Answer (lit "Done") true
        | RSucceeded t => Answer t true
        | RUsage => Answer (pusage e) false
        | RFailed t => Answer t false
        end, snd x).
Proof. intros su p name args e F H L. unfold pprocess. cbn [rq_command rq_args]. rewrite F, H, L. reflexivity. Qed.

Lemma pfind_In : forall n e, pfind n = Some e -> In e ptable /\ pe_name e = n.
Proof. intros n e H. apply find_some in H. destruct H as [H1 H2]. apply str_eqb_eq in H2. auto. Qed.

(** A request that does something is that of a handler. *)
Lemma pprocess_cases : forall su p q a p', pprocess su p q = Ok (a, p') ->
  p' = p \/ exists e r, In e ptable /\ pe_name e = rq_command q /\ pe_min e <= List.length (rq_args q) /\ pe_do e su (rq_args q) p = Ok (r, p').
Proof.
  intros su p q a p' H. unfold pprocess in H. destruct (pfind (rq_command q)) as [e|] eqn:F; [|inversion H; auto].
  destruct (str_eqb _ _); [inversion H; auto|]. destruct (_ <? _) eqn:L; [inversion H; auto|]. apply Nat.ltb_ge in L.
  destruct (pe_do e su (rq_args q) p) as [[r p1]| | |] eqn:D; try discriminate. cbn [obind fst snd] in H. inversion H; subst.
  right. apply pfind_In in F. exists e, r. tauto.
Qed.

Lemma same_refl : forall p, same_but_criteria p p.
Proof. intros p. repeat split. Qed.
Lemma same_with : forall p cs, same_but_criteria p (with_criteria p cs).
Proof. intros p cs. repeat split. Qed.

Lemma crits_with : forall p cs, criteria (with_criteria p cs) = cs.
Proof. reflexivity. Qed.

(** ** What happens to the criteria *)

(** The criteria after an event. *)
Definition crit_change (v : pevent) (cs cs' : list criterion) : Prop :=
  cs' = cs \/ cs' = crits_reset cs
  \/ (exists n t, cs' = cs ++ [cr_new n t] /\ built (cty_incl t) t)
  \/ (exists su q n i x, v = EvRequest su q /\ rq_command q = lit "setCriterionState" /\ nth_error (rq_args q) 0 = Some n
        /\ crits_find cs n = Some i /\ cs' = crits_set cs i x).

Lemma built_incl : forall incl t, built incl t -> cty_incl t = incl.
Proof. intros incl t B. apply C16_one_to_one in B. tauto. Qed.

Lemma create_change : forall v incl n vs p r p', create incl n vs p = Ok (r, p') -> crit_change v (criteria p) (criteria p').
Proof.
  intros v incl n vs p r p' H. unfold create in H. destruct (add_states incl 0 vs (cty_new incl)) as [[t|e]| | |] eqn:E; try discriminate; cbn [obind] in H; injection H as <- <-; [|left; auto].
  right; right; left. exists n, t. split; [reflexivity|]. apply add_states_built in E; [|lia|constructor]. rewrite (built_incl _ _ E). auto.
Qed.

Lemma load_instance_change : forall ks l i, load_instance ks l = Ok i -> mg_crits (in_mgr i) = ks \/ mg_crits (in_mgr i) = crits_reset ks.
Proof.
  intros ks l i H. destruct l as [|y al s|y g al s sv]; cbn [load_instance] in H; try (inversion H; subst; left; reflexivity).
  destruct (start_up y g al ks s) as [m| | |] eqn:E; try discriminate. cbn [obind] in H. inversion H; subst. right. apply (start_up_crits _ _ _ _ _ _ E).
Qed.

Lemma pstep_view : forall p v a p', pstep p v = Ok (a, p') -> crit_change v (criteria p) (criteria p').
Proof.
  intros p v a p' H. destruct v as [su q|c]; cbn [pstep] in H.
  - destruct (pl_open p); [|inversion H; left; auto]. apply pprocess_cases in H. destruct H as [->|[e [r [I [N [L H]]]]]]; [left; auto|].
    unfold ptable in I. cbn [In] in I.
    repeat (destruct I as [I|I]); try contradiction; subst e; cbn [pe_do entry_of pe_min pe_name] in H, N, L.
    + inversion H; subst. left. auto.
    + inversion H; subst. left. reflexivity.
    + unfold h_create_list in H. destruct (arg _ 0) as [n| | |]; try discriminate. cbn [obind] in H. eapply create_change; eauto.
    + unfold h_create_list in H. destruct (arg _ 0) as [n| | |]; try discriminate. cbn [obind] in H. eapply create_change; eauto.
    + unfold h_create_count in H. destruct (arg _ 0) as [n| | |]; try discriminate. cbn [obind] in H. destruct (arg _ 1) as [n1| | |]; try discriminate. cbn [obind] in H. eapply create_change; eauto.
    + unfold h_create_count in H. destruct (arg _ 0) as [n| | |]; try discriminate. cbn [obind] in H. destruct (arg _ 1) as [n1| | |]; try discriminate. cbn [obind] in H. eapply create_change; eauto.
    + unfold h_start in H. destruct (pl_loaded p); [discriminate|]. destruct (load_instance _ _) as [i| | |] eqn:E; try discriminate. cbn [obind] in H. inversion H; subst.
      apply load_instance_change in E. unfold criteria. cbn [pl_mgr]. destruct E as [->| ->]; [left|right; left]; auto.
    + unfold h_set_state in H. unfold arg in H at 1. destruct (nth_error (rq_args q) 1) as [s|] eqn:A1; [|discriminate]. cbn [obind] in H.
      destruct (nth_error (rq_args q) 0) as [n|] eqn:A0; [|destruct (rq_args q); discriminate].
      assert (forall i x, crits_find (criteria p) n = Some i -> crit_change (EvRequest su q) (criteria p) (criteria (set_state p i x))) as W.
      { intros i x Hi. right; right; right. exists su, q, n, i, (to_ctype t_int32 x). repeat split; auto. }
      destruct (convertTo t_uint32 s) as [x|].
      * unfold arg in H. rewrite A0 in H. cbn [obind] in H. destruct (crits_find _ n) as [i|] eqn:Fi; inversion H; subst; [apply W; auto|left; auto].
      * unfold set_lexical, arg in H. rewrite A0 in H. cbn [obind] in H. destruct (crits_find _ n) as [i|] eqn:Fi; [|inversion H; left; auto].
        destruct (nth_error _ i) as [k|]; [|discriminate]. destruct (_ && _); [inversion H; left; auto|].
        destruct (cty_numerical _ _) as [x|]; inversion H; subst; [apply W; auto|left; auto].
    + unfold h_apply in H. destruct (step _ _ _) as [[b m]| | |] eqn:E; try discriminate. cbn [obind snd] in H. inversion H; subst. apply step_view in E. cbn in E.
      unfold criteria. cbn [pl_mgr with_state]. destruct E as [->| ->]; [left|right; left]; auto.
    + unfold h_set_policy in H. destruct (arg _ 0) as [s| | |]; try discriminate. cbn [obind] in H. destruct (convert_bool s); [destruct (pl_started p)|]; inversion H; subst; left; reflexivity.
    + inversion H; subst. left. auto.
    + unfold h_set_policy in H. destruct (arg _ 0) as [s| | |]; try discriminate. cbn [obind] in H. destruct (convert_bool s); [destruct (pl_started p)|]; inversion H; subst; left; reflexivity.
    + inversion H; subst. left. auto.
    + unfold h_set_policy in H. destruct (arg _ 0) as [s| | |]; try discriminate. cbn [obind] in H. destruct (convert_bool s); [destruct (pl_started p)|]; inversion H; subst; left; reflexivity.
    + inversion H; subst. left. auto.
    + inversion H; subst. left. auto.
    + unfold h_set_uri in H. destruct (arg _ 0) as [s| | |]; try discriminate. cbn [obind] in H. inversion H; subst. left. reflexivity.
  - destruct (pl_started p && tuning_command c) eqn:T; [|inversion H; left; auto]. destruct (step _ _ c) as [[b m]| | |] eqn:E; try discriminate. cbn [obind fst snd] in H. inversion H; subst.
    apply step_view in E. apply andb_true_iff in T. destruct T as [_ T]. unfold criteria. cbn [pl_mgr with_state].
    destruct c; try discriminate T; destruct E as [->| ->]; [left|right; left|left|right; left|left|right; left|left|right; left|left|right; left|left|right; left|left|right; left|left|right; left|left|right; left|left|right; left|left|right; left|left|right; left|left|right; left|left|right; left|left|right; left|left|right; left|left|right; left|left|right; left|left|right; left|left|right; left|left|right; left|left|right; left|left|right; left]; auto.
Qed.

Lemma crits_set_In : forall cs i v k, In k (crits_set cs i v) -> exists k0, In k0 cs /\ cr_type k = cr_type k0 /\ cr_name k = cr_name k0.
Proof.
  induction cs as [|c cs IH]; intros i v k H; [destruct H|]. destruct i as [|i]; cbn [crits_set In] in H.
  - destruct H as [<-|H]; [exists c|exists k]; simpl; auto. split; auto. unfold cr_set. destruct (_ =? _)%Z; auto.
  - destruct H as [<-|H]; [exists c; simpl; auto|]. apply IH in H. destruct H as [k0 H]. exists k0. simpl. tauto.
Qed.

Lemma pstep_built : forall p v a p', p_built p -> pstep p v = Ok (a, p') -> p_built p'.
Proof.
  intros p v a p' B H k Hk. apply pstep_view in H. destruct H as [H|[H|[[n [t [H T]]]|[su [q [n [i [x [_ [_ [_ [_ H]]]]]]]]]]]]; rewrite H in Hk.
  - apply B; auto.
  - unfold crits_reset in Hk. apply in_map_iff in Hk. destruct Hk as [k0 [<- Hk]]. apply (B k0 Hk).
  - apply in_app_or in Hk. destruct Hk as [Hk|[<-|[]]]; [apply B; auto|exact T].
  - apply crits_set_In in Hk. destruct Hk as [k0 [Hk [-> _]]]. apply B; auto.
Qed.

Lemma psession_built : forall vs p answers p', p_built p -> psession p vs = Ok (answers, p') -> p_built p'.
Proof.
  induction vs as [|v vs IH]; intros p answers p' B H; cbn [psession] in H; [inversion H; subst; auto|].
  destruct (pstep p v) as [[a p1]| | |] eqn:E; try discriminate. cbn [obind fst snd] in H. destruct (psession p1 vs) as [[l p2]| | |] eqn:E2; try discriminate. cbn [obind fst snd] in H.
  inversion H; subst. eapply IH; [|exact E2]. eapply pstep_built; eauto.
Qed.

Lemma obtainable_built : forall p, p_obtainable p -> p_built p.
Proof. intros p [vs [answers H]]. eapply psession_built; [|exact H]. intros k []. Qed.

(** ** Finding a criterion *)

Lemma find_called : forall p n i k, is_called p n i k -> crits_find (criteria p) n = Some i.
Proof. intros p n i k [N H]. eapply crits_find_named; eauto. Qed.

Lemma find_none : forall cs n, (forall k, In k cs -> cr_path_name k <> n) -> crits_find cs n = None.
Proof.
  induction cs as [|c cs IH]; intros n H; auto. cbn [crits_find]. assert (str_eqb (cr_path_name c) n = false) as -> by (apply str_eqb_neq; apply H; simpl; auto).
  rewrite IH; auto. intros k Hk. apply H. simpl. auto.
Qed.

Lemma find_first : forall cs n i, crits_find cs n = Some i -> exists k, nth_error cs i = Some k /\ cr_path_name k = n /\ forall j k', j < i -> nth_error cs j = Some k' -> cr_path_name k' <> n.
Proof.
  induction cs as [|c cs IH]; intros n i H; [discriminate|]. cbn [crits_find] in H. destruct (str_eqb (cr_path_name c) n) eqn:E.
  - inversion H; subst. apply str_eqb_eq in E. exists c. split; auto. split; auto. intros j k' Hj. lia.
  - destruct (crits_find cs n) as [i0|] eqn:F; [|discriminate]. inversion H; subst. apply IH in F. destruct F as [k [F1 [F2 F3]]]. exists k. split; auto. split; auto.
    intros j k' Hj Hk. destruct j as [|j]; simpl in Hk; [inversion Hk; subst; apply str_eqb_neq; auto|]. apply (F3 j); auto. lia.
Qed.

Lemma set_state_set : forall p i k v, nth_error (criteria p) i = Some k -> state_set p (set_state p i v) i (to_ctype t_int32 v).
Proof.
  intros p i k v H. split; [apply same_with|]. unfold criteria, set_state. cbn [pl_mgr with_criteria with_state mg_crits with_crits]. split; [apply crits_set_length|]. split.
  - intros j Hj. rewrite crits_set_nth. rewrite (proj2 (Nat.eqb_neq i j)) by auto. auto.
  - exists k, (cr_set k (to_ctype t_int32 v)). split; auto. rewrite crits_set_nth, Nat.eqb_refl. unfold criteria in H. rewrite H. split; auto.
    rewrite cr_set_state. unfold cr_set. destruct (_ =? _)%Z; auto.
Qed.

Lemma int_as_int : forall v, (0 <= v < 2 ^ 32)%Z -> to_ctype t_int32 v = as_int v.
Proof.
  intros v H. unfold to_ctype, t_int32, as_int. cbn [ct_signed ct_bytes andb]. cbv zeta. change (2 ^ (8 * Z.of_nat 4))%Z with 4294967296%Z. change (4294967296 / 2)%Z with 2147483648%Z.
  rewrite Z.mod_small by lia. change (2 ^ 31)%Z with 2147483648%Z. change (2 ^ 32)%Z with 4294967296%Z. rewrite Z.ltb_antisym. destruct (_ <=? _)%Z; reflexivity.
Qed.
Lemma int_id : forall v, is_int v -> to_ctype t_int32 v = v.
Proof. intros v [H1 H2]. apply IntProofs.to_ctype_id; [simpl; lia|]. unfold ct_lo, ct_hi, t_int32. simpl. lia. Qed.

(** ** A criterion keeps its state *)

Lemma called_prefix : forall cs cs' n i k, named cs n i k ->
  (exists k', nth_error cs' i = Some k' /\ cr_name k' = cr_name k) -> (forall j, j < i -> option_map cr_name (nth_error cs' j) = option_map cr_name (nth_error cs j)) ->
  exists k', named cs' n i k' /\ nth_error cs' i = Some k'.
Proof.
  intros cs cs' n i k [H1 [H2 H3]] [k' [K1 K2]] P. exists k'. split; auto. split; auto. split; [congruence|]. intros j x Hj Hx.
  specialize (P j Hj). rewrite Hx in P. destruct (nth_error cs j) as [y|] eqn:Y; [|discriminate]. simpl in P. inversion P as [P']. pose proof (H3 j y Hj Y) as H. unfold cr_path_name in *. rewrite P'. auto.
Qed.

Lemma change_keeps : forall v p p' n x, crit_change v (criteria p) (criteria p') -> ~ p_sets n v -> state_is p n x -> state_is p' n x.
Proof.
  intros v p p' n x H N [i [k [[Nn C] S0]]].
  assert (forall k', nth_error (criteria p') i = Some k' -> cr_name k' = cr_name k -> cr_state k' = cr_state k -> (forall j, j < i -> option_map cr_name (nth_error (criteria p') j) = option_map cr_name (nth_error (criteria p) j)) -> state_is p' n x) as W.
  { intros k' K1 K2 K3 P. destruct (called_prefix _ _ _ _ _ C (ex_intro _ k' (conj K1 K2)) P) as [k2 [Q1 Q2]]. exists i, k2. split; [split; auto|]. congruence. }
  pose proof C as [C1 [C2 C3]]. destruct H as [H|[H|[[m [t [H _]]]|[su [q [m [j [z [-> [H1 [H2 [H3 H]]]]]]]]]]]]; rewrite H in W.
  - apply (W k); auto.
  - apply (W (cr_reset k)); auto; [unfold crits_reset; rewrite nth_error_map, C1; auto|]. intros j _. unfold crits_reset. rewrite nth_error_map. destruct (nth_error (criteria p) j); auto.
  - apply (W k); auto; [rewrite nth_error_app1; auto; apply nth_error_Some; congruence|]. intros j Hj. rewrite nth_error_app1; auto. assert (i < List.length (criteria p)) by (apply nth_error_Some; congruence). lia.
  - assert (j <> i) as D.
    { intros ->. apply find_first in H3. destruct H3 as [k1 [F1 [F2 _]]]. assert (k1 = k) by congruence. subst k1. apply N. cbn [p_sets]. split; auto. rewrite H2. f_equal. rewrite <- F2. unfold cr_path_name. rewrite C2. destruct n; [congruence|auto]. }
    apply (W k); auto; [rewrite crits_set_nth, (proj2 (Nat.eqb_neq j i) D); auto|]. intros l _. rewrite crits_set_nth. destruct (Nat.eqb j l); [|auto]. destruct (nth_error (criteria p) l) as [c|]; auto. simpl. unfold cr_set. destruct (_ =? _)%Z; auto.
Qed.

(** ** The values that names denote are ints *)

Lemma lor_small : forall a b, (0 <= a < 2 ^ 31)%Z -> (0 <= b < 2 ^ 31)%Z -> (0 <= Z.lor a b < 2 ^ 31)%Z.
Proof.
  intros a b [A1 A2] [B1 B2]. assert (0 <= Z.lor a b)%Z as N by (apply Z.lor_nonneg; auto). split; auto.
  destruct (Z.eq_dec (Z.lor a b) 0) as [->|Z0]; [reflexivity|]. apply Z.log2_lt_pow2; [lia|]. rewrite Z.log2_lor by auto.
  destruct (Z.eq_dec a 0) as [->|Na]; destruct (Z.eq_dec b 0) as [->|Nb]; [reflexivity| | |]; repeat (rewrite Z.max_lub_lt_iff || split); try reflexivity; apply Z.log2_lt_pow2; lia.
Qed.

Lemma numerical_is_int : forall t s v, built (cty_incl t) t -> value_denotes t s v -> is_int v.
Proof.
  intros t s v B D. destruct (C16_one_to_one _ _ B) as [_ [_ [_ [S1 [_ Ii]]]]]. unfold value_denotes in D. destruct (cty_incl t); [|apply (Ii s v D)].
  destruct D as [toks [vs [_ [F ->]]]].
  assert (forall acc, (0 <= acc < 2 ^ 31)%Z -> (0 <= fold_left Z.lor vs acc < 2 ^ 31)%Z) as W.
  { clear -F S1. induction F as [|k w toks vs H F IH]; intros acc A; auto. cbn [fold_left]. apply IH. apply lor_small; auto.
    destruct (S1 eq_refl k w H) as [->|[b [Hb ->]]]; [lia|]. split; [apply Z.pow_nonneg; lia|apply Z.pow_lt_mono_r; lia]. }
  specialize (W 0%Z ltac:(lia)). unfold is_int. lia.
Qed.
