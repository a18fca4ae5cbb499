(** Proofs about sets of syncers and synchronisation. *)
From Coq Require Import List Arith Bool Lia Sorted.
From Verif Require Import Base BaseProofs BlackboardModel TreeModel TreeSpec TreeProofs SyncModel DomainModel DomainSpec.
Import ListNotations.
Local Open Scope nat_scope.

(** ** Sets *)

Lemma set_add_In : forall ss s x, In x (set_add s ss) <-> x = s \/ In x ss.
Proof.
  induction ss as [|y ss IH]; intros s x; simpl; [intuition|].
  destruct (Nat.ltb_spec s y); simpl; [intuition|]. destruct (Nat.eqb_spec s y); simpl; [subst; intuition|].
  rewrite IH. intuition.
Qed.

Lemma set_add_sorted : forall ss s, StronglySorted lt ss -> StronglySorted lt (set_add s ss).
Proof.
  induction ss as [|y ss IH]; intros s H; simpl; [repeat constructor|]. inversion H; subst.
  destruct (Nat.ltb_spec s y).
  - constructor; auto. constructor; auto. rewrite Forall_forall in *. intros z Hz. specialize (H3 z Hz). lia.
  - destruct (Nat.eqb_spec s y); auto. constructor; auto. rewrite Forall_forall in *. intros z Hz.
    apply set_add_In in Hz. destruct Hz as [->|Hz]; [lia|auto].
Qed.

Lemma set_union_In : forall b a x, In x (set_union a b) <-> In x a \/ In x b.
Proof.
  unfold set_union. induction b as [|s b IH]; intros a x; simpl; [intuition|]. rewrite IH, set_add_In. intuition.
Qed.

Lemma set_union_sorted : forall b a, StronglySorted lt a -> StronglySorted lt (set_union a b).
Proof. unfold set_union. induction b as [|s b IH]; intros a H; simpl; auto. apply IH, set_add_sorted; auto. Qed.

Lemma sorted_nodup : forall l, StronglySorted lt l -> NoDup l.
Proof.
  induction l as [|x l IH]; intros H; constructor; inversion H; subst; auto.
  intros C. rewrite Forall_forall in H3. specialize (H3 x C). lia.
Qed.

(** ** Synchronisation of a set *)

Lemma sync_set_spec : forall y ss bb tr ok errs tr', sync_set y ss bb tr = (ok, errs, tr') ->
  exists evs, tr' = tr ++ evs /\ map ev_syncer evs = ss /\ Forall (fun v => ev_mem v = bb) evs
    /\ ok = forallb ev_ok evs /\ errs = map ev_syncer (filter (fun v => negb (ev_ok v)) evs)
    /\ (forall l v r, evs = l ++ v :: r -> ev_ok v = sy_hw y (tr ++ l) (ev_syncer v)).
Proof.
  intros y ss bb. induction ss as [|s ss IH]; intros tr ok errs tr' H; cbn [sync_set] in H.
  - inversion H; subst. exists []. rewrite app_nil_r. repeat split; auto. intros [|? ?] ? ? C; discriminate.
  - unfold sync_one in H. destruct (sync_set y ss bb (tr ++ [Event s bb (sy_hw y tr s)])) as [[ok2 errs2] tr2] eqn:E.
    inversion H; subst. destruct (IH _ _ _ _ E) as [evs [-> [E1 [E2 [-> [-> E4]]]]]].
    exists (Event s bb (sy_hw y tr s) :: evs). rewrite <- app_assoc. split; auto. cbn [map ev_syncer forallb ev_ok filter].
    split; [congruence|]. split; [constructor; auto|]. split; auto. split; [destruct (sy_hw y tr s); auto|].
    intros [|x l] v r Ev; cbn [app] in Ev; inversion Ev; subst.
    + rewrite app_nil_r. auto.
    + rewrite (E4 l v r eq_refl). rewrite <- app_assoc. auto.
Qed.

(** ** The syncers related to an element *)

Lemma above_refl : forall p, above p p.
Proof. intros p. exists []. symmetry. apply app_nil_r. Qed.

Lemma above_trans : forall p q r, above p q -> above q r -> above p r.
Proof. intros p q r [a ->] [b ->]. exists (a ++ b). rewrite app_assoc. auto. Qed.

Lemma above_antisym : forall p q, above p q -> above q p -> p = q.
Proof.
  intros p q [a ->] [b H]. apply (f_equal (@List.length nat)) in H. rewrite !app_length in H.
  destruct a; [symmetry; apply app_nil_r|simpl in H; lia].
Qed.

Lemma above_both : forall p q r, above p r -> above q r -> above p q \/ above q p.
Proof.
  induction p as [|i p IH]; intros q r [a Ha] [b Hb].
  - left. exists q. auto.
  - destruct q as [|j q]; [right; exists (i :: p); auto|]. subst r. simpl in Hb. inversion Hb; subst j.
    destruct (IH q (p ++ a)) as [[c ->]|[c ->]]; [exists a; auto|exists b; auto|left; exists c; auto|right; exists c; auto].
Qed.

Lemma above_exists : forall root p q, above p q -> elem_at root q <> None -> elem_at root p <> None.
Proof. intros root p q [r ->] H C. apply H. rewrite elem_at_app, C. auto. Qed.

Lemma syncer_up_Some : forall own rp s, syncer_up own rp = Some s -> exists q, above q (rev rp) /\ own q = Some s.
Proof.
  induction rp as [|i rp IH]; intros s H; cbn [syncer_up] in H.
  - destruct (own (rev [])) eqn:E; [|discriminate]. inversion H; subst. exists []. split; auto. apply above_refl.
  - destruct (own (rev (i :: rp))) eqn:E.
    + inversion H; subst. exists (rev (i :: rp)). split; auto. apply above_refl.
    + destruct (IH s H) as [q [H1 H2]]. exists q. split; auto. eapply above_trans; [exact H1|]. exists [i]. auto.
Qed.

Lemma syncer_up_None : forall own rp, syncer_up own rp = None -> forall q, above q (rev rp) -> own q = None.
Proof.
  induction rp as [|i rp IH]; intros H q [r Hq]; cbn [syncer_up] in H.
  - destruct (own (rev [])) eqn:E; [discriminate|]. destruct q; [auto|discriminate].
  - destruct (own (rev (i :: rp))) eqn:E; [discriminate|]. destruct r as [|k r] using rev_ind.
    + rewrite app_nil_r in Hq. congruence.
    + clear IHr. apply IH; auto. simpl in Hq. rewrite app_assoc in Hq. apply app_inj_tail in Hq. exists r. tauto.
Qed.

Lemma get_syncer_Some : forall y p s, get_syncer y p = Some s -> exists q, above q p /\ sy_own y q = Some s.
Proof. intros y p s H. unfold get_syncer in H. apply syncer_up_Some in H. rewrite rev_involutive in H. auto. Qed.

Lemma get_syncer_None : forall y p, get_syncer y p = None -> forall q, above q p -> sy_own y q = None.
Proof. intros y p H q A. unfold get_syncer in H. eapply syncer_up_None; eauto. rewrite rev_involutive. auto. Qed.

Lemma fill_desc_In : forall own e p ss s,
  In s (fill_desc own e p ss) <->
  In s ss \/ exists r, elem_at e r <> None /\ own (p ++ r) = Some s
                       /\ forall r' x, r = r' ++ x -> x <> [] -> own (p ++ r') = None.
Proof.
  intros own. induction e as [nm k cs IH] using elem_ind_nested. rewrite Forall_forall in IH. intros p ss s. cbn [fill_desc].
  destruct (own p) as [t|] eqn:E.
  - rewrite set_add_In. split.
    + intros [->|H]; auto. right. exists []. rewrite app_nil_r. simpl. split; [discriminate|]. split; auto.
      intros r' x H1 H2. symmetry in H1. apply app_eq_nil in H1. destruct H1; subst. congruence.
    + intros [H|[r [H1 [H2 H3]]]]; auto. destruct r as [|i r].
      * rewrite app_nil_r in H2. left. congruence.
      * specialize (H3 [] (i :: r) eq_refl ltac:(discriminate)). rewrite app_nil_r in H3. congruence.
  - set (go := fix go (cs : list elem) (i : nat) (ss : list nat) : list nat :=
       match cs with [] => ss | c :: r => go r (S i) (fill_desc own c (p ++ [i]) ss) end).
    assert (forall cs' i ss', (forall j c, nth_error cs' j = Some c -> nth_error cs (i + j) = Some c) ->
      (forall c, In c cs' -> In c cs) ->
      (In s (go cs' i ss') <-> In s ss' \/ exists j c r, nth_error cs' j = Some c /\ elem_at c r <> None
         /\ own ((p ++ [i + j]) ++ r) = Some s
         /\ forall r' x, r = r' ++ x -> x <> [] -> own ((p ++ [i + j]) ++ r') = None)) as G.
    { induction cs' as [|c cs' IHc]; intros i ss' Hn Hi; cbn [go].
      - split; auto. intros [H|[j [c [r [H _]]]]]; auto. destruct j; discriminate.
      - rewrite IHc.
        + assert (In c cs) as Hc by (apply Hi; simpl; auto). rewrite (IH c Hc). split.
          * intros [[H|[r [H1 [H2 H3]]]]|[j [c' [r [H1 [H2 [H3 H4]]]]]]]; auto; right.
            -- exists 0, c, r. rewrite Nat.add_0_r. simpl. auto.
            -- exists (S j), c', r. replace (i + S j) with (S i + j) by lia. simpl nth_error. auto.
          * intros [H|[j [c' [r [H1 [H2 [H3 H4]]]]]]]; auto. destruct j as [|j].
            -- rewrite Nat.add_0_r in *. simpl in H1. inversion H1; subst c'. left. right. exists r. auto.
            -- right. exists j, c', r. replace (i + S j) with (S i + j) in * by lia. auto.
        + intros j c' H. replace (S i + j) with (i + S j) by lia. apply Hn. auto.
        + intros c' H. apply Hi. simpl. auto. }
    rewrite G by auto. split; (intros [H|H]; [auto|right]).
    + destruct H as [j [c [r [H1 [H2 [H3 H4]]]]]]. exists (j :: r). simpl. rewrite H1. split; auto.
      rewrite <- app_assoc in H3. split; auto. intros r' x Hr Hx. destruct r' as [|a r'].
      * rewrite app_nil_r. auto.
      * simpl in Hr. inversion Hr; subst. specialize (H4 r' x eq_refl Hx). rewrite <- app_assoc in H4. auto.
    + destruct H as [r [H1 [H2 H3]]]. destruct r as [|j r]; [rewrite app_nil_r in H2; congruence|].
      simpl in H1. destruct (nth_error cs j) as [c|] eqn:En; [|congruence]. exists j, c, r. split; auto. split; auto.
      rewrite <- app_assoc. split; auto. intros r' x Hr Hx. rewrite <- app_assoc. apply (H3 (j :: r') x); auto. simpl. congruence.
Qed.

Lemma fill_desc_sorted : forall own e p ss, StronglySorted lt ss -> StronglySorted lt (fill_desc own e p ss).
Proof.
  intros own. induction e as [nm k cs IH] using elem_ind_nested. rewrite Forall_forall in IH. intros p ss H. cbn [fill_desc].
  destruct (own p); [apply set_add_sorted; auto|].
  assert (forall cs', (forall c, In c cs' -> In c cs) -> forall i ss, StronglySorted lt ss ->
    StronglySorted lt ((fix go (cs : list elem) (i : nat) (ss : list nat) : list nat :=
       match cs with [] => ss | c :: r => go r (S i) (fill_desc own c (p ++ [i]) ss) end) cs' i ss)) as G.
  { induction cs' as [|c cs' IHc]; intros Hi i ss' Hs; auto. apply IHc; [intros; apply Hi; simpl; auto|].
    apply IH; auto. apply Hi. simpl. auto. }
  apply G; auto.
Qed.

Lemma syncer_set_sorted : forall y p, StronglySorted lt (syncer_set y p).
Proof.
  intros. unfold syncer_set, fill_syncer_set. destruct (get_syncer y p); [repeat constructor|].
  destruct (elem_at (sy_root y) p); [apply fill_desc_sorted|]; constructor.
Qed.

(** The syncer [s] is held by an element above or below [p]. *)
Definition linked (y : system) (p : pos) (s : nat) : Prop :=
  exists q, sy_own y q = Some s /\ (above q p \/ (above p q /\ elem_at (sy_root y) q <> None)).

Lemma syncer_set_In : forall y p s, one_syncer y -> elem_at (sy_root y) p <> None ->
  (In s (syncer_set y p) <-> linked y p s).
Proof.
  intros y p s O Hp. unfold syncer_set, fill_syncer_set. destruct (get_syncer y p) as [t|] eqn:E.
  - destruct (get_syncer_Some _ _ _ E) as [q [A Hq]]. simpl. split.
    + intros [->|[]]. exists q. auto.
    + intros [q' [Hq' [A'|[A' _]]]]; left.
      * destruct (above_both q q' p A A') as [C|C]; [pose proof (O q q' t s Hq Hq' C)|pose proof (O q' q s t Hq' Hq C)]; congruence.
      * pose proof (O q q' t s Hq Hq' (above_trans _ _ _ A A')). congruence.
  - destruct (elem_at (sy_root y) p) as [e|] eqn:Ee; [|congruence]. rewrite fill_desc_In. split.
    + intros [[]|[r [H1 [H2 H3]]]]. exists (p ++ r). split; auto. right. split; [exists r; auto|].
      rewrite elem_at_app, Ee. auto.
    + intros [q [Hq [A|[[r ->] Hx]]]].
      * rewrite (get_syncer_None _ _ E q A) in Hq. discriminate.
      * right. exists r. rewrite elem_at_app, Ee in Hx. split; auto. split; auto. intros r' x -> Hn.
        destruct (sy_own y (p ++ r')) as [t|] eqn:Et; auto.
        assert (p ++ r' = p ++ r' ++ x) as C by (apply (O (p ++ r') (p ++ r' ++ x) t s); auto; exists x; rewrite app_assoc; auto).
        apply (f_equal (@List.length nat)) in C. rewrite !app_length in C. destruct x; [congruence|simpl in C; lia].
Qed.

(** The syncer of a parameter is in the set of every element above. *)
Lemma syncer_covered : forall y p q s, one_syncer y -> elem_at (sy_root y) q <> None -> above p q ->
  get_syncer y q = Some s -> In s (syncer_set y p).
Proof.
  intros y p q s O Hq A H. apply syncer_set_In; auto.
  - eapply above_exists; eauto.
  - destruct (get_syncer_Some _ _ _ H) as [o [Ao Ho]]. exists o. split; auto.
    destruct (above_both o p q Ao A) as [C|C]; auto. right. split; auto. eapply above_exists; eauto.
Qed.

Lemma linked_above : forall y p q s, above p q -> elem_at (sy_root y) q <> None -> linked y q s -> linked y p s.
Proof.
  intros y p q s A Hq [o [Ho [Ao|[Ao Hx]]]]; exists o; split; auto.
  - destruct (above_both o p q Ao A) as [C|C]; auto. right. split; auto. eapply above_exists; eauto.
  - right. split; auto. eapply above_trans; eauto.
Qed.

Lemma linked_child : forall y p e s, elem_at (sy_root y) p = Some e -> e_children e <> [] -> linked y p s ->
  exists i, i < List.length (e_children e) /\ linked y (p ++ [i]) s.
Proof.
  intros y p e s He Hc [o [Ho [Ao|[[r ->] Hx]]]].
  - exists 0. destruct (e_children e); [congruence|]. simpl. split; [lia|]. exists o. split; auto. left.
    eapply above_trans; [exact Ao|]. exists [0]. auto.
  - destruct r as [|i r].
    + rewrite app_nil_r in *. exists 0. destruct (e_children e); [congruence|]. simpl. split; [lia|]. exists p. split; auto.
      left. exists [0]. auto.
    + exists i. rewrite elem_at_app, He in Hx. simpl in Hx. destruct (nth_error (e_children e) i) eqn:En; [|congruence].
      split; [apply nth_error_Some; congruence|]. exists (p ++ i :: r). split; auto. right. split.
      * exists r. rewrite <- app_assoc. auto.
      * rewrite elem_at_app, He. simpl. rewrite En. auto.
Qed.
