(** The elements gathered by the aggregator: rogue elements, elements to read back from the hardware. *)
From Coq Require Import List Arith ZArith Bool Lia.
From Verif Require Import Base BlackboardModel TreeModel TreeSpec TreeProofs MemSpec SyncModel SyncProofs DomainModel DomainSpec DomainProofs.
Import ListNotations.
Local Open Scope nat_scope.

(** The criterion holds of the element [e] at [p] and of all its descendants. *)
Definition whole_tree (ok : list nat -> bool) (e : elem) (p : list nat) : Prop := forall r, elem_at e r <> None -> ok (p ++ r) = true.

(** The element at [p ++ r] is gathered: it matches wholly, all its ancestors match, none of them wholly. *)
Definition gathered (ok : list nat -> bool) (e : elem) (p r : list nat) : Prop :=
  exists c, elem_at e r = Some c /\ whole_tree ok c (p ++ r)
    /\ forall r' s c', r = r' ++ s -> s <> [] -> elem_at e r' = Some c' -> ok (p ++ r') = true /\ ~ whole_tree ok c' (p ++ r').

Lemma whole_here : forall ok e p, whole_tree ok e p -> ok p = true.
Proof. intros ok e p H. specialize (H []). rewrite app_nil_r in H. apply H. destruct e; discriminate. Qed.

Lemma whole_children : forall ok nm k cs p, whole_tree ok (Elem nm k cs) p <->
  ok p = true /\ forall i c, nth_error cs i = Some c -> whole_tree ok c (p ++ [i]).
Proof.
  intros ok nm k cs p. split.
  - intros H. split; [apply (whole_here _ _ _ H)|]. intros i c E r Hr. rewrite <- app_assoc. apply H. simpl. rewrite E. auto.
  - intros [H0 H] r Hr. destruct r as [|i r]; [rewrite app_nil_r; auto|]. simpl in Hr. destruct (nth_error cs i) as [c|] eqn:E; [|congruence].
    specialize (H i c E r Hr). rewrite <- app_assoc in H. auto.
Qed.

Lemma gathered_child : forall ok nm k cs p r, ok p = true -> ~ whole_tree ok (Elem nm k cs) p ->
  (gathered ok (Elem nm k cs) p r <-> exists i r0 c, r = i :: r0 /\ nth_error cs i = Some c /\ gathered ok c (p ++ [i]) r0).
Proof.
  intros ok nm k cs p r H0 N. split.
  - intros [c [E [W A]]]. destruct r as [|i r0].
    + simpl in E. inversion E; subst c. rewrite app_nil_r in W. contradiction.
    + simpl in E. destruct (nth_error cs i) as [x|] eqn:Ei; [|discriminate]. exists i, r0, x. split; auto. split; auto.
      exists c. rewrite <- app_assoc. split; auto. split; auto. intros r' s c' Es Ns E'. specialize (A (i :: r') s c'). rewrite <- app_assoc. apply A; auto; [simpl; congruence|]. simpl. rewrite Ei. auto.
  - intros [i [r0 [x [-> [Ei [c [E [W A]]]]]]]]. exists c. simpl. rewrite Ei. rewrite <- app_assoc in W. split; auto. split; auto. intros r' s c' Es Ns E'.
    destruct r' as [|j r'].
    + simpl in E'. inversion E'; subst c'. rewrite app_nil_r. auto.
    + simpl in Es. inversion Es; subst. simpl in E'. rewrite Ei in E'. specialize (A r' s c' eq_refl Ns E'). rewrite <- app_assoc in A. auto.
Qed.

Lemma aggregate_spec : forall ok e p,
  (fst (aggregate ok e p) = true <-> whole_tree ok e p)
  /\ (forall x, In x (snd (aggregate ok e p)) <-> exists r, x = p ++ r /\ gathered ok e p r)
  /\ NoDup (snd (aggregate ok e p)).
Proof.
  intros ok e. induction e as [nm k cs IH] using elem_ind_nested. intros p. cbn [aggregate]. destruct (ok p) eqn:O.
  - match goal with |- context [(?f cs 0)] => set (go := f) end.
    assert (forall cs0 i, Forall (fun c => forall p, (fst (aggregate ok c p) = true <-> whole_tree ok c p)
               /\ (forall x, In x (snd (aggregate ok c p)) <-> exists r, x = p ++ r /\ gathered ok c p r) /\ NoDup (snd (aggregate ok c p))) cs0 ->
             (fst (go cs0 i) = true <-> forall j c, nth_error cs0 j = Some c -> whole_tree ok c (p ++ [i + j]))
             /\ (forall x, In x (snd (go cs0 i)) <-> exists j c r, nth_error cs0 j = Some c /\ x = (p ++ [i + j]) ++ r /\ gathered ok c (p ++ [i + j]) r)
             /\ NoDup (snd (go cs0 i))) as G.
    { induction cs0 as [|c r IHr]; intros i F.
      - simpl. split; [split; auto; intros _ j c; destruct j; discriminate|]. split; [|constructor]. intros x. split; [tauto|]. intros [j [c [r [H _]]]]. destruct j; discriminate.
      - apply Forall_cons_iff in F. destruct F as [F1 F2]. specialize (F1 (p ++ [i])). specialize (IHr (S i) F2). cbn [go]. destruct (aggregate ok c (p ++ [i])) as [b l]. 
        fold go. destruct (go r (S i)) as [b' l']. cbn [fst snd] in *. destruct F1 as [A1 [A2 A3]], IHr as [B1 [B2 B3]]. split; [|split].
        + rewrite andb_true_iff, A1, B1. split.
          * intros [H1 H2] j x E. destruct j as [|j]; simpl in E; [inversion E; subst; rewrite Nat.add_0_r; auto|]. replace (i + S j) with (S i + j) by lia. auto.
          * intros H. split; [specialize (H 0 c eq_refl); rewrite Nat.add_0_r in H; auto|]. intros j x E. specialize (H (S j) x E). replace (i + S j) with (S i + j) in H by lia. auto.
        + intros x. rewrite in_app_iff, A2, B2. split.
          * intros [[r0 [H1 H2]]|[j [c0 [r0 [H1 [H2 H3]]]]]]; [exists 0, c, r0; rewrite Nat.add_0_r; auto|]. exists (S j), c0, r0. replace (i + S j) with (S i + j) by lia. auto.
          * intros [j [c0 [r0 [H1 [H2 H3]]]]]. destruct j as [|j]; simpl in H1.
            -- inversion H1; subst c0. rewrite Nat.add_0_r in *. left. eauto.
            -- right. exists j, c0, r0. replace (S i + j) with (i + S j) by lia. auto.
        + apply NoDup_app; auto. intros x H1 H2. apply A2 in H1. apply B2 in H2. destruct H1 as [r1 [-> _]], H2 as [j [_ [r2 [_ [H _]]]]].
          rewrite <- !app_assoc in H. apply app_inv_head in H. inversion H. lia. }
    destruct (G cs 0 IH) as [G1 [G2 G3]]. destruct (go cs 0) as [all found]. cbn [fst snd] in *.
    assert (all = true <-> whole_tree ok (Elem nm k cs) p) as E.
    { rewrite G1, whole_children. split; [intros H; split; auto|intros [_ H]; auto]. }
    destruct all; cbn [fst snd].
    + split; [tauto|]. assert (whole_tree ok (Elem nm k cs) p) as W by tauto. split; [|repeat constructor; auto]. intros x. split.
      * intros [<-|[]]. exists []. rewrite app_nil_r. split; auto. exists (Elem nm k cs). split; auto. rewrite app_nil_r. split; auto. intros r' s c' Es Ns. destruct r', s; try discriminate; congruence.
      * intros [r [-> [c [Ec [_ A]]]]]. left. destruct r as [|i r]; [rewrite app_nil_r; auto|]. destruct (A [] (i :: r) (Elem nm k cs) eq_refl ltac:(discriminate) eq_refl) as [_ N]. rewrite app_nil_r in N. contradiction.
    + split; [tauto|]. assert (~ whole_tree ok (Elem nm k cs) p) as N by (intros W; apply E in W; discriminate). split; auto. intros x. rewrite G2. split.
      * intros [j [c [r [H1 [H2 H3]]]]]. exists (j :: r). rewrite <- app_assoc in H2. split; auto. apply gathered_child; auto. exists j, r, c. auto.
      * intros [r [-> Gr]]. apply gathered_child in Gr; auto. destruct Gr as [i [r0 [c [-> [H1 H2]]]]]. exists i, c, r0. rewrite <- app_assoc. auto.
  - cbn [fst snd]. split; [split; [discriminate|intros H; apply whole_here in H; congruence]|]. split; [|constructor]. intros x. split; [intros []|].
    intros [r [-> [c [Ec [W A]]]]]. exfalso. destruct r as [|i r].
    + apply whole_here in W. rewrite app_nil_r in W. congruence.
    + destruct (A [] (i :: r) (Elem nm k cs) eq_refl ltac:(discriminate) eq_refl) as [H _]. rewrite app_nil_r in H. congruence.
Qed.

(** The gathered elements do not overlap. *)
Lemma gathered_apart : forall ok e p r1 r2, gathered ok e p r1 -> gathered ok e p r2 -> above r1 r2 -> r1 = r2.
Proof.
  intros ok e p r1 r2 [c1 [E1 [W1 _]]] [c2 [_ [_ A2]]] [s H]. destruct s as [|i s]; [rewrite app_nil_r in H; auto|]. destruct (A2 r1 (i :: s) c1 H ltac:(discriminate) E1). contradiction.
Qed.

(** A leaf is at or below a gathered element exactly when it matches with all its ancestors. *)
Lemma gathered_covers : forall ok e p q c, elem_at e q = Some c -> e_children c = [] ->
  ((exists r, gathered ok e p r /\ above r q) <-> forall r, above r q -> ok (p ++ r) = true).
Proof.
  intros ok e. induction e as [nm k cs IH] using elem_ind_nested. intros p q c Eq Lf. split.
  - intros [r [[x [Ex [W A]]] [s Es]]] r' [s' Es']. destruct (above_both r' r q) as [[t Et]|[t Et]]; [exists s'; auto|exists s; auto| |].
    + destruct t as [|i t]; [rewrite app_nil_r in Et; subst r'; apply (whole_here _ _ _ W)|]. destruct (elem_at (Elem nm k cs) r') as [c'|] eqn:E'; [|exfalso].
      * apply (A r' (i :: t) c' Et ltac:(discriminate) E').
      * apply (above_exists (Elem nm k cs) r' r); [exists (i :: t); auto|congruence|auto].
    + subst r'. rewrite app_assoc. apply W. intros N. apply (above_exists (Elem nm k cs) (r ++ t) q); [exists s'; auto|congruence|]. rewrite elem_at_app, Ex. auto.
  - intros H. assert (ok p = true) as O by (specialize (H [] ltac:(exists q; auto)); rewrite app_nil_r in H; auto).
    destruct (fst (aggregate ok (Elem nm k cs) p)) eqn:B.
    + apply aggregate_spec in B. exists []. split; [|exists q; auto]. exists (Elem nm k cs). split; auto. rewrite app_nil_r. split; auto. intros r' s c' Es Ns. destruct r', s; try discriminate; congruence.
    + assert (~ whole_tree ok (Elem nm k cs) p) as N by (intros W; apply aggregate_spec in W; congruence).
      destruct q as [|i q].
      * simpl in Eq. inversion Eq; subst c. simpl in Lf. subst cs. exfalso. apply N. apply whole_children. split; auto. intros i c. destruct i; discriminate.
      * simpl in Eq. destruct (nth_error cs i) as [x|] eqn:Ei; [|discriminate]. rewrite Forall_forall in IH. destruct (proj2 (IH x (nth_error_In _ _ Ei) (p ++ [i]) q c Eq Lf)) as [r [Gr [s Hs]]].
        { intros r [s Hs]. rewrite <- app_assoc. apply H. exists s. simpl. congruence. }
        exists (i :: r). split; [|exists s; simpl; congruence]. apply gathered_child; auto. exists i, r, x. auto.
Qed.
