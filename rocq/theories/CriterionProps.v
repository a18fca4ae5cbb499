(** C16, C53, C54: selection criteria. *)
From Coq Require Import List Arith ZArith Bool Ascii String Lia Permutation.
From Verif Require Import Base TextModel TextSpec CriterionModel CriterionSpec CriterionProofs.
Import ListNotations.
Open Scope Z_scope.

(** ** C16 *)

(** Exactly which pairs are accepted, and what an accepted pair adds. *)
Theorem C16_add_value_pair : forall t v l, is_int v -> (cty_incl t = true -> v <> - 2 ^ 31) ->
  match cty_add t v l with
  | Ok t' => (cty_incl t = true -> single_bit v)
             /\ (forall w, ~ In (l, w) (cty_map t)) /\ (forall k, ~ In (k, v) (cty_map t))
             /\ cty_incl t' = cty_incl t
             /\ Permutation (cty_map t') ((l, v) :: cty_map t)
  | Err => (cty_incl t = true /\ ~ single_bit v)
           \/ (exists w, In (l, w) (cty_map t)) \/ (exists k, In (k, v) (cty_map t))
  | _ => False
  end.
Proof. exact cty_add_spec. Qed.
Print Assumptions C16_add_value_pair.

Example C16_add_value_pair_nonvacuous :
  cty_add (cty_new true) 4 (lit "b") = Ok (CritType true [(lit "b", 4); (lit "none", 0)])
  /\ cty_add (cty_new true) 6 (lit "b") = Err /\ cty_add (cty_new true) 4 (lit "none") = Err
  /\ cty_add (cty_new false) (-5) (lit "b") = Ok (CritType false [(lit "b", -5)]).
Proof. repeat split; vm_compute; reflexivity. Qed.

(** Every type built through the API is a one-to-one correspondence; inclusive types hold 0 and single bits. *)
Theorem C16_one_to_one : forall incl t, built incl t ->
  cty_incl t = incl /\ NoDup (map fst (cty_map t)) /\ NoDup (map snd (cty_map t))
  /\ (incl = true -> forall l v, In (l, v) (cty_map t) -> v = 0 \/ single_bit v)
  /\ (incl = true -> In (lit "none", 0) (cty_map t))
  /\ (forall l v, In (l, v) (cty_map t) -> is_int v).
Proof. exact built_inv. Qed.
Print Assumptions C16_one_to_one.

(** Both look-ups are exactly the correspondence. *)
Theorem C16_lookup : forall incl t l v, built incl t ->
  (cty_atomic t l = Some v <-> In (l, v) (cty_map t))
  /\ (cty_literal t v = Some l <-> In (l, v) (cty_map t)).
Proof. exact built_lookup. Qed.
Print Assumptions C16_lookup.

(** Meaning of a value text: a literal, or for an inclusive type the union of the literals separated by bars. *)
Theorem C16_numerical_value : forall incl t s v, built incl t ->
  (cty_numerical t s = Some v <-> value_denotes t s v).
Proof. intros incl t s v H. apply cty_numerical_spec. apply (built_inv incl t H). Qed.
Print Assumptions C16_numerical_value.

Definition ex_incl : crit_type := CritType true [(lit "a", 1); (lit "b", 4); (lit "none", 0)].

Example ex_incl_built : built true ex_incl.
Proof.
  apply (built_add true (CritType true [(lit "b", 4); (lit "none", 0)]) 1 (lit "a"));
    [|split; vm_compute; discriminate|vm_compute; reflexivity].
  apply (built_add true (cty_new true) 4 (lit "b"));
    [constructor|split; vm_compute; discriminate|vm_compute; reflexivity].
Qed.

Example C16_lookup_nonvacuous : built true ex_incl /\ cty_atomic ex_incl (lit "b") = Some 4
  /\ cty_literal ex_incl 1 = Some (lit "a") /\ cty_numerical ex_incl (lit "b|a") = Some 5.
Proof. split; [exact ex_incl_built|]. repeat split; vm_compute; reflexivity. Qed.

(** The one value for which addValuePair has no defined result: the smallest int on an inclusive type
    ([iValue - 1] overflows). *)
Theorem C16_smallest_int_refuted : exists t v l, built true t /\ is_int v /\ cty_add t v l = UB.
Proof.
  exists (cty_new true), (- 2 ^ 31), (lit "x"). split; [constructor|]. split; [split; vm_compute; discriminate|].
  vm_compute. reflexivity.
Qed.
Print Assumptions C16_smallest_int_refuted.

(** ** C53 *)

(** After any calls, the state of each criterion is the last one set, the count is the number of changes of state since
    the last apply (modulo 2^32: it is a uint32_t), and nothing else has changed. *)
Theorem C53_history : forall ops cs i c,
  nth_error cs i = Some c -> cr_mods c = 0 ->
  exists c', nth_error (fold_left do_op ops cs) i = Some c'
    /\ cr_state c' = fst (history i ops (cr_state c) 0)
    /\ cr_mods c' = snd (history i ops (cr_state c) 0) mod 2 ^ 32
    /\ cr_name c' = cr_name c /\ cr_type c' = cr_type c.
Proof. intros ops cs i c H Hm. apply ops_history; auto. Qed.
Print Assumptions C53_history.

(** Up to 2^32 - 1 calls, the criterion is reported as modified exactly when it changed since the last apply. *)
Theorem C53_modified : forall ops cs i c,
  nth_error cs i = Some c -> cr_mods c = 0 -> Z.of_nat (List.length ops) < 2 ^ 32 ->
  exists c', nth_error (fold_left do_op ops cs) i = Some c'
    /\ (cr_modified c' = true <-> 0 < snd (history i ops (cr_state c) 0)).
Proof.
  intros ops cs i c H Hm Hl. destruct (ops_history ops cs i c 0 H Hm) as [c' [A [_ [B _]]]].
  exists c'. split; auto. unfold cr_modified. rewrite B.
  pose proof (history_count ops i (cr_state c) 0 ltac:(lia)). rewrite Z.mod_small by lia.
  rewrite negb_true_iff, Z.eqb_neq. lia.
Qed.
Print Assumptions C53_modified.

Example C53_history_nonvacuous :
  let cs := [cr_new (lit "A") (cty_new false); cr_new (lit "B") ex_incl] in
  let ops := [SetState 0 3; SetState 1 4; Apply; SetState 0 3; SetState 1 5; SetState 1 4; SetState 1 4] in
  history 0 ops 0 0 = (3, 0) /\ history 1 ops 0 0 = (4, 2)
  /\ map cr_state (fold_left do_op ops cs) = [3; 4] /\ map cr_mods (fold_left do_op ops cs) = [0; 2].
Proof. repeat split; vm_compute; reflexivity. Qed.

(** The count wraps: after 2^32 changes a criterion is reported as not modified. *)
Theorem C53_wrap_refuted : exists ops c, 0 < snd (history 0 ops (cr_state c) 0)
  /\ exists c', nth_error (fold_left do_op ops [c]) 0 = Some c' /\ cr_modified c' = false.
Proof.
  destruct (alternate (Z.to_nat (2 ^ 31)) 0 0) as [ops E]; [auto|].
  exists ops, (cr_new (lit "A") (cty_new false)). cbn [cr_new cr_state].
  assert (snd (history 0 ops 0 0) = 2 ^ 32) as E'.
  { rewrite E. cbn [snd]. rewrite Z2Nat.id by discriminate. reflexivity. }
  rewrite E'. split; [reflexivity|].
  destruct (ops_history ops [cr_new (lit "A") (cty_new false)] 0 (cr_new (lit "A") (cty_new false)) 0 eq_refl eq_refl)
    as [c' [A [_ [B _]]]].
  exists c'. split; [exact A|]. unfold cr_modified. rewrite B. cbn [cr_new cr_state]. rewrite E'. reflexivity.
Qed.
Print Assumptions C53_wrap_refuted.

(** ** C54 *)

(** The formatted state of a criterion in a declared state names that state again. *)
Theorem C54_formatted_state_partial : forall incl t v, built incl t ->
  (forall l w, In (l, w) (cty_map t) -> l <> [] /\ (incl = true -> ~ In "|"%char l)) ->
  (if incl then 0 < v < 2 ^ 31 /\ forall i, 0 <= i < 31 -> Z.testbit v i = true -> exists l, In (l, 2 ^ i) (cty_map t)
   else exists l, In (l, v) (cty_map t)) ->
  cty_numerical t (cty_formatted t v) = Some v.
Proof. exact cty_formatted_numerical. Qed.
Print Assumptions C54_formatted_state_partial.

Example C54_formatted_state_nonvacuous : cty_formatted ex_incl 5 = lit "a|b" /\ cty_numerical ex_incl (lit "a|b") = Some 5.
Proof. split; vm_compute; reflexivity. Qed.

(** An inclusive criterion in state 0, though "none" is declared for it, is formatted as a text that names nothing. *)
Theorem C54_none_refuted : exists t, built true t /\ In (lit "none", 0) (cty_map t)
  /\ cty_numerical t (cty_formatted t 0) = None.
Proof. exists (cty_new true). split; [constructor|]. split; [simpl; auto|]. vm_compute. reflexivity. Qed.
Print Assumptions C54_none_refuted.

(** States whose bits are not all declared: the undeclared bits are dropped silently. *)
Theorem C54_undeclared_refuted : exists t v w, built true t /\ is_int v
  /\ cty_numerical t (cty_formatted t v) = Some w /\ w <> v.
Proof.
  exists ex_incl, 3, 1. split; [exact ex_incl_built|]. split; [split; vm_compute; discriminate|].
  split; [vm_compute; reflexivity|discriminate].
Qed.
Print Assumptions C54_undeclared_refuted.
