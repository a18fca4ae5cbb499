(** Criteria that change during an application of configurations. *)
From Coq Require Import List Arith ZArith Bool Lia Permutation.
From Verif Require Import Base BaseProofs CriterionModel RuleModel RuleSpec RuleProofs BlackboardModel TreeModel TreeSpec TreeProofs MemSpec SyncModel
  DomainModel DomainSpec MemProofs AreaProofs SyncProofs DomainProofs DomainInv DomainApply MgrModel MgrSpec MgrSkel ApplySpec ApplyProofs RaceModel RaceSpec.
Import ListNotations.
Local Open Scope nat_scope.

(** ** Looks *)

Fixpoint loop_looks (st : moments) (all : bool) (l : list rule) (t : nat) : bool * nat :=
  match l with
  | [] => (all, t)
  | k :: l' => let '(b, t1) := rule_looks st k t in if xorb b all then (negb all, t1) else loop_looks st all l' t1
  end.

Lemma rule_looks_comp : forall st all l t, rule_looks st (RComp all l) t = loop_looks st all l t.
Proof. intros st all l. induction l as [|k l IH]; intros t; auto. cbn [rule_looks loop_looks]. destruct (rule_looks st k t) as [b t1]. destruct (xorb b all); auto. apply IH. Qed.

Fixpoint loop_matches (cs : list criterion) (all : bool) (l : list rule) : bool :=
  match l with
  | [] => all
  | k :: l' => if xorb (rule_matches cs k) all then negb all else loop_matches cs all l'
  end.

Lemma rule_matches_comp : forall cs all l, rule_matches cs (RComp all l) = loop_matches cs all l.
Proof. intros cs all l. induction l as [|k l IH]; auto. cbn [rule_matches loop_matches]. destruct (xorb (rule_matches cs k) all); auto. Qed.

Lemma rule_looks_later : forall st r t, t <= snd (rule_looks st r t).
Proof.
  intros st r. induction r as [c w v|all l IH] using rule_ind2; intros t; [simpl; lia|]. rewrite rule_looks_comp.
  revert t. induction l as [|k l IHl]; intros t; [simpl; lia|]. cbn [loop_looks].
  pose proof (IH k ltac:(simpl; auto) t) as A. destruct (rule_looks st k t) as [b t1]. cbn [snd] in A. destruct (xorb b all); cbn [snd]; auto.
  specialize (IHl ltac:(intros; apply IH; simpl; auto) t1). lia.
Qed.

Lemma loop_looks_later : forall st all l t, t <= snd (loop_looks st all l t).
Proof. intros. rewrite <- rule_looks_comp. apply rule_looks_later. Qed.

Lemma rule_looks_steady : forall st cs r t, steady st cs t (snd (rule_looks st r t)) -> fst (rule_looks st r t) = rule_matches cs r.
Proof.
  intros st cs r. induction r as [c w v|all l IH] using rule_ind2; intros t H.
  - simpl in *. rewrite (H t) by lia. auto.
  - rewrite rule_looks_comp in *. rewrite rule_matches_comp. revert t H. induction l as [|k l IHl]; intros t H; auto. cbn [loop_looks loop_matches] in *.
    pose proof (IH k ltac:(simpl; auto) t) as A. pose proof (rule_looks_later st k t) as L. destruct (rule_looks st k t) as [b t1]. cbn [fst snd] in *.
    destruct (xorb b all) eqn:X; cbn [fst snd] in *.
    + rewrite <- A, X; auto.
    + pose proof (loop_looks_later st all l t1) as L2. rewrite <- A, X by (intros u Hu; apply H; lia).
      apply IHl; [intros; apply IH; simpl; auto|]. intros u Hu. apply H. lia.
Qed.

Lemma pick_later : forall st l t, t <= snd (pick_looks st l t).
Proof.
  intros st l. induction l as [|c l IH]; intros t; [simpl; lia|]. cbn [pick_looks]. unfold config_looks. destruct (cf_rule c) as [r|]; auto.
  pose proof (rule_looks_later st r t) as L. destruct (rule_looks st r t) as [[|] t1]; cbn [snd] in *; auto. specialize (IH t1). lia.
Qed.

Lemma pick_steady : forall st cs l t, steady st cs t (snd (pick_looks st l t)) -> fst (pick_looks st l t) = find (cf_applicable cs) l.
Proof.
  intros st cs l. induction l as [|c l IH]; intros t H; auto. cbn [pick_looks find] in *. unfold config_looks, cf_applicable, is_applicable in *.
  destruct (cf_rule c) as [r|]; auto.
  pose proof (rule_looks_steady st cs r t) as A. pose proof (rule_looks_later st r t) as L. destruct (rule_looks st r t) as [[|] t1]; cbn [fst snd] in *.
  - rewrite <- A; auto.
  - pose proof (pick_later st l t1) as L2. rewrite <- A by (intros u Hu; apply H; lia). apply IH. intros u Hu. apply H. lia.
Qed.

Lemma pick_In : forall st l t c, fst (pick_looks st l t) = Some c -> In c l /\ exists r a, cf_rule c = Some r /\ t <= a <= snd (pick_looks st l t)
  /\ fst (rule_looks st r a) = true /\ snd (rule_looks st r a) = snd (pick_looks st l t).
Proof.
  intros st l. induction l as [|k l IH]; intros t c H; [discriminate|]. cbn [pick_looks] in *. unfold config_looks in *. destruct (cf_rule k) as [r|] eqn:Er.
  - pose proof (rule_looks_later st r t) as L. destruct (rule_looks st r t) as [[|] t1] eqn:E; cbn [fst snd] in *.
    + inversion H; subst k. split; [simpl; auto|]. exists r, t. rewrite E. simpl. auto.
    + destruct (IH t1 c H) as [I [r2 [a [H1 [H2 [H3 H4]]]]]]. split; [simpl; auto|]. exists r2, a. repeat split; auto; lia.
  - destruct (IH t c H) as [I X]. split; [simpl; auto|]. auto.
Qed.

(** ** One changing criterion tested once *)

Fixpoint sum_tests (k : nat) (l : list rule) : nat := match l with [] => 0 | x :: l' => tests_of k x + sum_tests k l' end.

Lemma tests_comp : forall k all l, tests_of k (RComp all l) = sum_tests k l.
Proof. intros k all l. induction l as [|x l IH]; auto. cbn [tests_of sum_tests]. f_equal. exact IH. Qed.

Lemma crit_same : forall k st c w v t u, only_changes k st -> c <> k -> crit_matches (st t) c w v = crit_matches (st u) c w v.
Proof. intros k st c w v t u O N. unfold crit_matches. rewrite (O c t u N). auto. Qed.

Lemma matches_same : forall k st r t u, only_changes k st -> tests_of k r = 0 -> rule_matches (st t) r = rule_matches (st u) r.
Proof.
  intros k st r t u O. induction r as [c w v|all l IH] using rule_ind2; intros Z.
  - simpl in *. destruct (Nat.eqb_spec c k); [discriminate|]. apply (crit_same k); auto.
  - rewrite tests_comp in Z. rewrite !rule_matches_comp. induction l as [|x l IHl]; auto. cbn [sum_tests] in Z. cbn [loop_matches].
    rewrite (IH x) by (simpl; auto; lia). destruct (xorb _ all); auto. apply IHl; [intros; apply IH; simpl; auto|lia].
Qed.

Lemma looks_zero : forall k st r t u, only_changes k st -> tests_of k r = 0 -> fst (rule_looks st r t) = rule_matches (st u) r.
Proof.
  intros k st r t u O. revert t. induction r as [c w v|all l IH] using rule_ind2; intros t Z.
  - simpl in *. destruct (Nat.eqb_spec c k); [discriminate|]. apply (crit_same k); auto.
  - rewrite tests_comp in Z. rewrite rule_looks_comp, rule_matches_comp. revert t. induction l as [|x l IHl]; intros t; auto. cbn [sum_tests] in Z. cbn [loop_looks loop_matches].
    rewrite <- (IH x ltac:(simpl; auto) t) by lia. destruct (rule_looks st x t) as [b t1]. cbn [fst]. destruct (xorb b all); auto.
    apply IHl; [intros; apply IH; simpl; auto|lia].
Qed.

Lemma looks_once : forall k st r t, only_changes k st -> tests_of k r <= 1 ->
  exists u, t <= u <= snd (rule_looks st r t) /\ fst (rule_looks st r t) = rule_matches (st u) r.
Proof.
  intros k st r t O. revert t. induction r as [c w v|all l IH] using rule_ind2; intros t Z.
  - exists t. simpl. split; auto.
  - rewrite tests_comp in Z. rewrite rule_looks_comp. revert t. induction l as [|x l IHl]; intros t; [exists t; simpl; auto|]. cbn [sum_tests] in Z. cbn [loop_looks].
    pose proof (rule_looks_later st x t) as L.
    destruct (Nat.eq_dec (tests_of k x) 0) as [E|E].
    + assert (forall u, fst (rule_looks st x t) = rule_matches (st u) x) as A by (intros u; apply (looks_zero k); auto).
      destruct (rule_looks st x t) as [b t1]. cbn [fst snd] in *. destruct (xorb b all) eqn:X.
      * exists t1. cbn [fst snd]. split; [lia|]. rewrite rule_matches_comp. cbn [loop_matches]. rewrite <- A, X. auto.
      * destruct (IHl ltac:(intros; apply IH; simpl; auto) ltac:(lia) t1) as [u [U1 U2]]. exists u. split; [lia|].
        rewrite U2, !rule_matches_comp. cbn [loop_matches]. rewrite <- A, X. auto.
    + destruct (IH x ltac:(simpl; auto) t ltac:(lia)) as [u [U1 U2]].
      assert (forall t2, fst (loop_looks st all l t2) = rule_matches (st u) (RComp all l)) as B.
      { intros t2. rewrite <- rule_looks_comp. apply (looks_zero k); auto. rewrite tests_comp. lia. }
      destruct (rule_looks st x t) as [b t1]. cbn [fst snd] in *. exists u. rewrite rule_matches_comp. cbn [loop_matches]. rewrite <- U2. destruct (xorb b all) eqn:X.
      * cbn [fst snd]. split; [lia|auto].
      * pose proof (loop_looks_later st all l t1). split; [lia|]. rewrite B, rule_matches_comp. auto.
Qed.

(** ** One domain *)

Lemma ids_inj : forall (l : list config) a b, NoDup (map cf_id l) -> In a l -> In b l -> cf_id a = cf_id b -> a = b.
Proof.
  induction l as [|x l IH]; intros a b N Ia Ib E; [destruct Ia|]. cbn [map] in N. inversion N as [|? ? N1 N2]; subst. destruct Ia as [<-|Ia]; destruct Ib as [<-|Ib]; auto.
  - exfalso. apply N1. rewrite E. apply in_map. auto.
  - exfalso. apply N1. rewrite <- E. apply in_map. auto.
Qed.


(** The domain once the configuration [o] was found. *)
Definition picked (o : option config) (force : bool) (d : domain) : domain :=
  match o with
  | Some c => with_last d (Some (cf_id c))
  | None => if force then with_last d None else d
  end.

Definition is_null {A} (o : option A) : bool := match o with None => true | Some _ => false end.

(** The parameters the domain does not cover keep their bits. *)
Definition kept (root : elem) (d : domain) (main main' : blackboard) : Prop :=
  forall q e, param_at root q e -> ~ covers d q -> same_setting root q 0 main' 0 main.

Lemma dm_during_skip : forall y st force d shared main tr t, xorb (is_null shared) (dm_aware d) = true ->
  dm_apply_during y st force d shared main tr t = Ok (d, shared, main, tr, t).
Proof. intros. unfold dm_apply_during. unfold is_null in H. rewrite H. auto. Qed.

Lemma written_settled : forall y d c main main', structure_ok y -> domain_ok y d -> In c (dm_configs d) -> written (sy_root y) c main main' ->
  settled (sy_root y) (with_last d (Some (cf_id c))) main'.
Proof.
  intros y d c main main' Hst K Ic W c2 q e Ic2 El Hq Cv. cbn [with_last dm_last dm_configs] in *.
  assert (c2 = c) as ->.
  { inversion El as [Ei]. apply (ids_inj (dm_configs d)); auto. apply (dk_ids _ _ K). }
  destruct Cv as [p [Hp Ab]]. cbn [with_last dm_elems] in Hp. destruct (dk_configs _ _ K c Ic) as [Pm Fo].
  pose proof (Permutation_in _ (Permutation_sym Pm) Hp) as Hp2. apply in_map_iff in Hp2. destruct Hp2 as [z [Ez Hz]].
  exists z. split; auto. rewrite Ez. split; auto. intros i Ho. rewrite Nat.sub_0_r. symmetry. rewrite <- Ez in *. destruct W as [_ [W _]].
  apply (W i (abit (sy_root y) z i)). exists z. split; auto. split; auto.
  apply (owns_above (sy_root y) (ar_pos z) q i (proj1 Hst)); auto. rewrite Forall_forall in Fo. destruct (Fo z Hz) as [x [X _]]. eauto.
Qed.

Lemma dm_during_spec : forall y st force d shared main tr t, structure_ok y -> domain_ok y d -> List.length main = footprint (sy_root y) ->
  xorb (is_null shared) (dm_aware d) = false ->
  exists shared' main' tr', dm_apply_during y st force d shared main tr t
     = Ok (picked (fst (pick_looks st (dm_configs d) t)) force d, shared', main', tr', snd (pick_looks st (dm_configs d) t))
    /\ is_null shared' = is_null shared /\ List.length main' = footprint (sy_root y) /\ kept (sy_root y) d main main'
    /\ (force = true \/ settled (sy_root y) d main -> settled (sy_root y) (picked (fst (pick_looks st (dm_configs d) t)) force d) main').
Proof.
  intros y st force d shared main tr t Hst K Lm X. unfold dm_apply_during. unfold is_null in X. rewrite X.
  assert (dm_configs (if force then with_last d None else d) = dm_configs d) as Ec by (destruct force; auto). rewrite Ec.
  pose proof (pick_In st (dm_configs d) t) as PI. destruct (pick_looks st (dm_configs d) t) as [o t1] eqn:Ep. cbn [fst snd] in *.
  assert (kept (sy_root y) d main main) as Km by (intros q e Hq N i Ho; auto).
  destruct o as [c|].
  2:{ exists shared, main, tr. split; [cbn [picked]; auto|]. split; auto. split; auto. split; auto. intros H. cbn [picked]. destruct force.
      - intros k q e _ F. discriminate.
      - destruct H; [discriminate|auto]. }
  assert (In c (dm_configs d)) as Ic by (apply PI; auto). cbn [picked].
  assert (is_last (if force then with_last d None else d) c = negb force && is_last d c) as El by (destruct force; auto).
  rewrite El. destruct (negb force && is_last d c) eqn:Q.
  - apply andb_true_iff in Q. destruct Q as [Q1 Q2]. apply negb_true_iff in Q1. subst force.
    unfold is_last in Q2. destruct (dm_last d) as [i|] eqn:Ed; [|discriminate]. apply Nat.eqb_eq in Q2. subst i.
    rewrite <- Ed, with_last_same. exists shared, main, tr. repeat split; auto. intros [F|F]; [discriminate|auto].
  - assert (dm_aware (if force then with_last d None else d) = dm_aware d) as Eaw by (destruct force; auto). rewrite Eaw.
    destruct (cf_restore_spec y ((match shared with None => true | Some _ => false end) && dm_aware d) (dm_elems d) c main tr Hst (dk_separate _ _ K) (dk_configs _ _ K c Ic) Lm)
      as [main' [evs [R1 [R2 _]]]].
    rewrite R1. cbn [obind]. eexists _, main', _. split; [assert (with_last (if force then with_last d None else d) (Some (cf_id c)) = with_last d (Some (cf_id c))) as -> by (destruct force; auto); reflexivity|].
    split; [destruct shared; auto; destruct (dm_aware d); auto|]. split; [destruct R2; congruence|]. split.
    + intros q e Hq N i Ho. rewrite !Nat.sub_0_r. apply R2. apply (covers_owns y d c q i); eauto.
    + intros _. apply (written_settled y d c main main'); auto.
Qed.

(** ** Several domains *)

Lemma picked_last : forall o force d, same_but_last d (picked o force d).
Proof. intros. unfold picked. destruct o; [|destruct force]; repeat split; auto. Qed.

Lemma picked_ok : forall y st force d t, domain_ok y d -> domain_ok y (picked (fst (pick_looks st (dm_configs d) t)) force d).
Proof.
  intros y st force d t K. pose proof (pick_In st (dm_configs d) t) as PI. destruct (fst (pick_looks st (dm_configs d) t)) as [c|].
  - destruct (PI c eq_refl) as [Ic _]. unfold picked. destruct K; constructor; cbn [with_last dm_last dm_configs]; auto.
    intros i Hi. inversion Hi; subst. exists c. auto.
  - unfold picked. destruct force; auto. destruct K; constructor; cbn [with_last dm_last dm_configs]; auto. discriminate.
Qed.

(** What a loop makes of a domain, with the looks from [t] to [t']. *)
Definition handled (st : moments) (force null : bool) (t t' : nat) (d d' : domain) : Prop :=
  if xorb null (dm_aware d) then d' = d
  else exists a, t <= a /\ snd (pick_looks st (dm_configs d) a) <= t' /\ d' = picked (fst (pick_looks st (dm_configs d) a)) force d.

Lemma handled_wider : forall st force null t t' u u' d d', handled st force null t t' d d' -> u <= t -> t' <= u' -> handled st force null u u' d d'.
Proof. intros. unfold handled in *. destruct (xorb null (dm_aware d)); auto. destruct H as [a [H2 [H3 H4]]]. exists a. repeat split; auto; lia. Qed.

Lemma handled_same : forall st force null t t' d d', handled st force null t t' d d' -> same_but_last d d'.
Proof. intros. unfold handled in H. destruct (xorb null (dm_aware d)); [subst; repeat split|]. destruct H as [a [_ [_ ->]]]. apply picked_last. Qed.

Lemma handled_ok : forall y st force null t t' d d', handled st force null t t' d d' -> domain_ok y d -> domain_ok y d'.
Proof. intros. unfold handled in H. destruct (xorb null (dm_aware d)); [subst; auto|]. destruct H as [a [_ [_ ->]]]. apply picked_ok. auto. Qed.

Lemma same_covers : forall d d' q, same_but_last d d' -> (covers d' q <-> covers d q).
Proof. intros d d' q [_ [_ [_ [E _]]]]. unfold covers. rewrite E. tauto. Qed.

Lemma settled_kept : forall root d main main', settled root d main ->
  (forall q e, param_at root q e -> covers d q -> same_setting root q 0 main' 0 main) -> settled root d main'.
Proof.
  intros root d main main' S H c q e Ic El Hq Cv. destruct (S c q e Ic El Hq Cv) as [a [A1 [A2 A3]]]. exists a. split; auto. split; auto.
  intros i Ho. rewrite (A3 i Ho). symmetry. apply (H q e Hq Cv i Ho).
Qed.

Lemma Forall2_weaken : forall A B (P Q : A -> B -> Prop) l l', (forall a b, P a b -> Q a b) -> Forall2 P l l' -> Forall2 Q l l'.
Proof. intros A B P Q l l' H F. induction F; constructor; auto. Qed.

Lemma pass_during_spec : forall y st force l shared main tr t, structure_ok y -> (forall d, In d l -> domain_ok y d) -> List.length main = footprint (sy_root y) ->
  exists l' shared' main' tr' t', pass_during y st force l shared main tr t = Ok (l', shared', main', tr', t')
    /\ t <= t' /\ List.length main' = footprint (sy_root y)
    /\ Forall2 (handled st force (is_null shared) t t') l l'
    /\ (forall q e, param_at (sy_root y) q e -> (forall d, In d l -> ~ covers d q) -> same_setting (sy_root y) q 0 main' 0 main)
    /\ (apart (sy_root y) l -> Forall2 (fun d d' => (xorb (is_null shared) (dm_aware d) = false /\ force = true) \/ settled (sy_root y) d main -> settled (sy_root y) d' main') l l').
Proof.
  intros y st force l. induction l as [|d l IH]; intros shared main tr t Hst K Lm; cbn [pass_during].
  - exists [], shared, main, tr, t. repeat split; auto.
  - assert (exists d1 sh1 main1 tr1 t1, dm_apply_during y st force d shared main tr t = Ok (d1, sh1, main1, tr1, t1)
      /\ is_null sh1 = is_null shared /\ t <= t1 /\ List.length main1 = footprint (sy_root y) /\ handled st force (is_null shared) t t1 d d1
      /\ kept (sy_root y) d main main1
      /\ ((xorb (is_null shared) (dm_aware d) = false /\ force = true) \/ settled (sy_root y) d main -> settled (sy_root y) d1 main1)) as H1.
    { destruct (xorb (is_null shared) (dm_aware d)) eqn:X.
      - exists d, shared, main, tr, t. rewrite dm_during_skip by auto. split; auto. split; auto. split; auto. split; auto. unfold handled. rewrite X. split; auto.
        split; [intros q e Hq N i Ho; auto|]. intros [[F _]|F]; [discriminate|auto].
      - destruct (dm_during_spec y st force d shared main tr t Hst ltac:(apply K; simpl; auto) Lm X) as [sh1 [main1 [tr1 [E [N [L1 [Kp S]]]]]]].
        eexists _, sh1, main1, tr1, _. split; [exact E|]. split; auto. split; [apply pick_later|]. split; auto. split; [unfold handled; rewrite X; exists t; auto|]. split; auto.
        intros [[_ F]|F]; apply S; auto. }
    destruct H1 as [d1 [sh1 [main1 [tr1 [t1 [E1 [N1 [T1 [L1 [Ha1 [Kp1 S1]]]]]]]]]]]. rewrite E1. cbn [obind].
    destruct (IH sh1 main1 tr1 t1 Hst ltac:(intros; apply K; simpl; auto) L1) as [l' [sh2 [main2 [tr2 [t2 [E2 [T2 [L2 [F2 [Kp2 S2]]]]]]]]]].
    rewrite E2. cbn [obind]. exists (d1 :: l'), sh2, main2, tr2, t2. split; auto. split; [lia|]. split; auto. rewrite N1 in *. split; [|split].
    + constructor; [apply (handled_wider _ _ _ t t1); auto|]. eapply Forall2_weaken; [|exact F2]. intros a b H. apply (handled_wider _ _ _ t1 t2); auto.
    + intros q e Hq N i Ho. rewrite (Kp2 q e Hq ltac:(intros; apply N; simpl; auto) i Ho). apply (Kp1 q e Hq ltac:(apply N; simpl; auto) i Ho).
    + intros Ap. inversion Ap as [|? ? Ap1 Ap2]; subst. rewrite Forall_forall in Ap1. constructor.
      * intros H. apply (settled_kept _ _ main1); auto. intros q e Hq Cv. apply (Kp2 q e Hq). intros k Hk Cv2.
        apply (Ap1 k Hk q e Hq); auto. apply (same_covers d d1 q); auto. eapply handled_same; eauto.
      * specialize (S2 Ap2). assert (forall k, In k l -> settled (sy_root y) k main -> settled (sy_root y) k main1) as M.
        { intros k Hk S. apply (settled_kept _ _ main); auto. intros q e Hq Cv. apply (Kp1 q e Hq). intros Cv2. apply (Ap1 k Hk q e Hq); auto. }
        clear - S2 M. induction S2; constructor.
        -- intros [Q|Q]; apply H; auto. right. apply M; simpl; auto.
        -- apply IHS2. intros k Hk. apply M. simpl. auto.
Qed.

(** ** The two loops *)

(** What the application makes of a domain. *)
Definition turned (st : moments) (force : bool) (n : nat) (d d' : domain) : Prop :=
  exists a, snd (pick_looks st (dm_configs d) a) <= n /\ d' = picked (fst (pick_looks st (dm_configs d) a)) force d.

Lemma Forall2_compose : forall A B C (P : A -> B -> Prop) (Q : B -> C -> Prop) (R : A -> C -> Prop) l1 l2 l3,
  (forall a b c, P a b -> Q b c -> R a c) -> Forall2 P l1 l2 -> Forall2 Q l2 l3 -> Forall2 R l1 l3.
Proof. intros A B C P Q R l1 l2 l3 H F. revert l3. induction F; intros l3 G; inversion G; subst; constructor; eauto. Qed.

Lemma Forall2_both : forall A B (P Q : A -> B -> Prop) l l', Forall2 P l l' -> Forall2 Q l l' -> Forall2 (fun a b => P a b /\ Q a b) l l'.
Proof. intros A B P Q l l' F. induction F; intros G; inversion G; subst; constructor; auto. Qed.

Lemma apart_same : forall root l l', Forall2 same_but_last l l' -> apart root l -> apart root l'.
Proof.
  intros root l l' F. induction F as [|d d' l l' S F IH]; intros A; [constructor|]. inversion A as [|? ? A1 A2]; subst. constructor; [|apply IH; auto].
  clear IH A A2. rewrite Forall_forall in A1. apply Forall_forall. intros k' Hk' q e Hq Cv Ck. revert A1 Hk' Ck. induction F as [|k k2 l l' S2 F IH]; intros A1 Hk' Ck; [destruct Hk'|].
  destruct Hk' as [<-|Hk']; [|apply IH; auto; intros z Hz; exact (A1 z (or_intror Hz))].
  apply (A1 k (or_introl eq_refl) q e Hq); [apply (proj1 (same_covers d d' q S)); exact Cv|apply (proj1 (same_covers k k2 q S2)); exact Ck].
Qed.

(** What the application needs of the state. *)
Definition good (y : system) (m : mgr) : Prop :=
  (forall d, In d (ds_list (mg_doms m)) -> domain_ok y d) /\ List.length (mg_main m) = footprint (sy_root y).

Lemma do_during_spec : forall y st force need m, structure_ok y -> good y m ->
  exists m' n, do_apply_during y st force need m = Ok (m', n)
    /\ mg_crits m' = crits_reset (st n) /\ mg_tuning m' = mg_tuning m /\ List.length (mg_main m') = footprint (sy_root y)
    /\ ds_att (mg_doms m') = ds_att (mg_doms m) /\ ds_fresh (mg_doms m') = ds_fresh (mg_doms m)
    /\ Forall2 (turned st force n) (ds_list (mg_doms m)) (ds_list (mg_doms m'))
    /\ (apart (sy_root y) (ds_list (mg_doms m)) ->
        Forall2 (fun d d' => force = true \/ settled (sy_root y) d (mg_main m) -> settled (sy_root y) d' (mg_main m')) (ds_list (mg_doms m)) (ds_list (mg_doms m'))).
Proof.
  intros y st force need m Hst [K L]. unfold do_apply_during, ds_apply_during.
  destruct (pass_during_spec y st force (ds_list (mg_doms m)) (Some (resync_syncers y need)) (mg_main m) (mg_trace m) 0 Hst K L)
    as [l1 [sh1 [main1 [tr1 [t1 [E1 [T1 [L1 [F1 [_ S1]]]]]]]]]].
  rewrite E1. cbn [obind is_null] in *. destruct (sync_set y (match sh1 with Some c => c | None => [] end) main1 tr1) as [[ok errs] tr2].
  assert (forall d, In d l1 -> domain_ok y d) as K1.
  { intros d Hd. assert (Forall (fun d => domain_ok y d) l1) as G; [|rewrite Forall_forall in G; auto].
    clear - F1 K. induction F1; constructor; [|apply IHF1; intros; apply K; simpl; auto].
    eapply handled_ok; eauto. apply K. simpl. auto. }
  destruct (pass_during_spec y st force l1 None main1 tr2 t1 Hst K1 L1) as [l2 [sh2 [main2 [tr3 [t2 [E2 [T2 [L2 [F2 [_ S2]]]]]]]]]].
  rewrite E2. cbn [obind is_null] in *. eexists _, t2. split; [reflexivity|]. split; auto. split; auto. split; auto. split; auto. split; auto. cbn [mg_doms with_crits with_trace with_main with_doms ds_list mg_main].
  split.
  - eapply Forall2_compose; [|exact F1|exact F2]. intros a b c H1 H2.
    { unfold handled, turned in *. destruct (dm_aware a) eqn:Aw; cbn [xorb negb] in *.
      - subst b. rewrite Aw in H2. cbn [xorb negb] in H2. destruct H2 as [x [X1 [X2 X3]]]. exists x. auto.
      - destruct H1 as [x [X1 [X2 X3]]]. pose proof (picked_last (fst (pick_looks st (dm_configs a) x)) force a) as Sb. rewrite <- X3 in Sb.
        destruct Sb as [_ [_ [Sa _]]]. rewrite Sa, Aw in H2. cbn [xorb negb] in H2. subst c. exists x. split; auto. lia. }
  - intros Ap. specialize (S1 Ap).
    assert (apart (sy_root y) l1) as Ap1 by (apply (apart_same _ (ds_list (mg_doms m))); auto; eapply Forall2_weaken; [|exact F1]; intros a b H; eapply handled_same; eauto).
    specialize (S2 Ap1). pose proof (Forall2_both _ _ _ _ _ _ F1 S1) as B1.
    eapply Forall2_compose; [|exact B1|exact S2]. intros a b c H1 H2. cbv beta in *. destruct H1 as [Ha H1]. intros Hs. pose proof (handled_same _ _ _ _ _ _ _ Ha) as [_ [_ [Sa _]]].
    apply H2. destruct (dm_aware a) eqn:Aw; cbn [xorb negb] in *.
    + destruct Hs as [Hs|Hs]; [left; rewrite Sa; auto|]. right. apply H1. auto.
    + right. apply H1. destruct Hs; auto.
Qed.

(** ** No change *)

Definition timed {A} (o : outcome A) (n : nat) : outcome (A * nat) :=
  match o with Ok x => Ok (x, n) | Err => Err | Abort => Abort | UB => UB end.

Lemma dm_during_quiet : forall y st cs force d shared main tr t, (forall u, st u = cs) ->
  exists n, dm_apply_during y st force d shared main tr t = timed (dm_apply y cs force d shared main tr) n.
Proof.
  intros y st cs force d shared main tr t Q. unfold dm_apply_during, dm_apply. destruct (xorb _ (dm_aware d)); [exists t; auto|].
  pose proof (pick_steady st cs (dm_configs (if force then with_last d None else d)) t ltac:(intros u _; apply Q)) as P. unfold dm_applicable.
  destruct (pick_looks st (dm_configs (if force then with_last d None else d)) t) as [o t1]. cbn [fst] in P. rewrite <- P. exists t1.
  destruct o as [c|]; auto. destruct (is_last _ c); auto. destruct (cf_restore _ _ c main tr) as [[[[ok m1] er] tr1]| | |]; auto.
Qed.

Lemma pass_during_quiet : forall y st cs force l shared main tr t, (forall u, st u = cs) ->
  exists n, pass_during y st force l shared main tr t = timed (apply_pass y cs force l shared main tr) n.
Proof.
  intros y st cs force l. induction l as [|d l IH]; intros shared main tr t Q; [exists t; auto|]. cbn [pass_during apply_pass].
  destruct (dm_during_quiet y st cs force d shared main tr t Q) as [n1 E1]. rewrite E1.
  destruct (dm_apply y cs force d shared main tr) as [[[[d1 sh1] m1] tr1]| | |]; try (exists n1; reflexivity). cbn [timed obind].
  destruct (IH sh1 m1 tr1 n1 Q) as [n2 E2]. rewrite E2. exists n2. destruct (apply_pass y cs force l sh1 m1 tr1) as [[[[l2 sh2] m2] tr2]| | |]; auto.
Qed.

Lemma do_during_quiet : forall y st force need m, (forall u, st u = mg_crits m) ->
  exists n, do_apply_during y st force need m = timed (do_apply y force need m) n.
Proof.
  intros y st force need m Q. unfold do_apply_during, do_apply, ds_apply_during, ds_apply.
  destruct (pass_during_quiet y st (mg_crits m) force (ds_list (mg_doms m)) (Some (resync_syncers y need)) (mg_main m) (mg_trace m) 0 Q) as [n1 E1]. rewrite E1.
  destruct (apply_pass y (mg_crits m) force (ds_list (mg_doms m)) (Some (resync_syncers y need)) (mg_main m) (mg_trace m)) as [[[[l1 sh1] m1] tr1]| | |];
    try (exists n1; reflexivity). cbn [timed obind].
  destruct (sync_set y (match sh1 with Some c => c | None => [] end) m1 tr1) as [[ok er] tr2].
  destruct (pass_during_quiet y st (mg_crits m) force l1 None m1 tr2 n1 Q) as [n2 E2]. rewrite E2. exists n2.
  destruct (apply_pass y (mg_crits m) force l1 None m1 tr2) as [[[[l2 sh2] m2] tr3]| | |]; auto. cbn [timed obind]. rewrite Q. auto.
Qed.

(** ** What is kept by disturbances *)

Lemma changed_length : forall cs cs', changed cs cs' -> List.length cs' = List.length cs.
Proof. intros cs cs' H. induction H; auto. rewrite (proj2 (MgrSkel.crits_set_nth cs' i v 0)). auto. Qed.

Lemma course_length : forall cs st, course cs st -> forall t, List.length (st t) = List.length cs.
Proof. intros cs st [H0 HS] t. induction t as [|t IH]; [apply changed_length; auto|]. rewrite (changed_length _ _ (HS t)). auto. Qed.

Lemma turned_same : forall st force n d d', turned st force n d d' -> same_but_last d d'.
Proof. intros st force n d d' [a [_ ->]]. apply picked_last. Qed.

Lemma Forall2_In_r : forall A B (P : A -> B -> Prop) l l' b, Forall2 P l l' -> In b l' -> exists a, In a l /\ P a b.
Proof. intros A B P l l' b F. induction F as [|x y l l' H F IHF]; intros I; [destruct I|]. destruct I as [<-|I]; [exists x; simpl; auto|]. destruct (IHF I) as [a [A1 A2]]. exists a. simpl. auto. Qed.

Lemma scoped_length : forall cs cs' d, List.length cs' = List.length cs -> scoped cs d -> scoped cs' d.
Proof. intros cs cs' d L S c r Hc Hr. apply (in_scope_length cs); auto. apply (S c r); auto. Qed.

Lemma scoped_same : forall cs d d', same_but_last d d' -> scoped cs d -> scoped cs d'.
Proof. intros cs d d' [_ [_ [_ [_ [E _]]]]] S c r Hc Hr. rewrite E in Hc. apply (S c r); auto. Qed.

(** The invariant of the disturbances. *)
Definition sound (y : system) (m : mgr) : Prop :=
  good y m /\ (forall d, In d (ds_list (mg_doms m)) -> scoped (mg_crits m) d) /\ apart (sy_root y) (ds_list (mg_doms m)).

Lemma during_sound : forall y st force need m m' n, structure_ok y -> sound y m -> (forall t, List.length (st t) = List.length (mg_crits m)) ->
  do_apply_during y st force need m = Ok (m', n) -> sound y m' /\ (force = true \/ all_settled y m -> all_settled y m').
Proof.
  intros y st force need m m' n Hst [G [Sc Ap]] Lc H. destruct (do_during_spec y st force need m Hst G) as [m2 [n2 [E [Ec [_ [L [_ [_ [F S]]]]]]]]].
  rewrite E in H. inversion H; subst m2 n2. specialize (S Ap). split; [split; [split|split]|].
  - intros d' Hd. destruct (Forall2_In_r _ _ _ _ _ _ F Hd) as [d [Hd1 [a [_ ->]]]]. apply picked_ok. apply G. auto.
  - auto.
  - intros d' Hd. destruct (Forall2_In_r _ _ _ _ _ _ F Hd) as [d [Hd1 T]]. apply (scoped_same _ d); [eapply turned_same; eauto|].
    apply (scoped_length (mg_crits m)); auto. rewrite Ec, (proj2 (crits_reset_nth (st n) 0)). auto.
  - apply (apart_same _ (ds_list (mg_doms m))); auto. eapply Forall2_weaken; [|exact F]. intros a b T. eapply turned_same; eauto.
  - intros Hs d' Hd. destruct (Forall2_In_r _ _ _ _ _ _ S Hd) as [d [Hd1 T]]. apply T. destruct Hs as [Hs|Hs]; auto.
Qed.

Lemma disturbed_sound : forall y m m', structure_ok y -> disturbed y m m' -> sound y m -> all_settled y m -> sound y m' /\ all_settled y m'.
Proof.
  intros y m m' Hst D So Al. induction D as [|m1 i v D IH|m1 m2 st need n D IH C E]; auto.
  - destruct IH as [[G [Sc Ap]] A]. split; [|exact A]. split; [exact G|]. split; [|exact Ap]. intros d Hd. apply (scoped_length (mg_crits m1)); [|apply Sc; exact Hd].
    cbn [mg_crits with_crits]. apply (MgrSkel.crits_set_nth _ _ _ 0).
  - destruct IH as [S A]. unfold apply_during in E. destruct (mg_tuning m1); [inversion E; subst; auto|].
    destruct (during_sound y st false need m1 m2 n Hst S (course_length _ _ C) E) as [S2 A2]. auto.
Qed.

Lemma reachable_sound : forall y m, system_ok y -> reachable y m -> apart (sy_root y) (ds_list (mg_doms m)) -> sound y m.
Proof.
  intros y m Sy R Ap. destruct (reachable_ok y m Sy R) as [[K [V L]] [Ru _]]. split; [split; [apply (ds_domain _ _ K)|auto]|]. split; auto.
  intros d Hd. apply rules_scoped; auto.
Qed.

(** ** The order of the looks *)

(** The domains one after the other. *)
Fixpoint sweep (st : moments) (force : bool) (l : list domain) (t : nat) : list domain * nat :=
  match l with
  | [] => ([], t)
  | d :: r => let '(o, t1) := pick_looks st (dm_configs d) t in let '(r', t2) := sweep st force r t1 in (picked o force d :: r', t2)
  end.

Lemma sweep_app : forall st force l1 l2 t, sweep st force (l1 ++ l2) t
  = (fst (sweep st force l1 t) ++ fst (sweep st force l2 (snd (sweep st force l1 t))), snd (sweep st force l2 (snd (sweep st force l1 t)))).
Proof.
  intros st force l1. induction l1 as [|d l1 IH]; intros l2 t; cbn [app sweep fst snd].
  - destruct (sweep st force l2 t); auto.
  - destruct (pick_looks st (dm_configs d) t) as [o t1]. rewrite IH. destruct (sweep st force l1 t1) as [x t2]. cbn [fst snd app]. auto.
Qed.

Definition due (null : bool) (d : domain) : bool := negb (xorb null (dm_aware d)).

Lemma picked_aware : forall o force d, dm_aware (picked o force d) = dm_aware d.
Proof. intros. apply picked_last. Qed.

Lemma pass_sweep : forall y st force l shared main tr t l' shared' main' tr' t', structure_ok y -> (forall d, In d l -> domain_ok y d) ->
  List.length main = footprint (sy_root y) -> pass_during y st force l shared main tr t = Ok (l', shared', main', tr', t') ->
  sweep st force (filter (due (is_null shared)) l) t = (filter (due (is_null shared)) l', t')
  /\ filter (due (negb (is_null shared))) l' = filter (due (negb (is_null shared))) l.
Proof.
  intros y st force l. induction l as [|d l IH]; intros shared main tr t l' shared' main' tr' t' Hst K Lm H; cbn [pass_during] in H; [inversion H; subst; auto|].
  assert (due (negb (is_null shared)) d = negb (due (is_null shared) d)) as Dn by (unfold due; destruct (is_null shared), (dm_aware d); auto).
  destruct (xorb (is_null shared) (dm_aware d)) eqn:X.
  - rewrite dm_during_skip in H by auto. cbn [obind] in H.
    destruct (pass_during y st force l shared main tr t) as [[[[[r1 s2] m2] tr2] t2]| | |] eqn:E; cbn [obind] in H; try discriminate. inversion H; subst.
    destruct (IH _ _ _ _ _ _ _ _ _ Hst ltac:(intros; apply K; simpl; auto) Lm E) as [I1 I2].
    assert (due (is_null shared) d = false) as Du by (unfold due; rewrite X; auto). cbn [filter]. rewrite Dn, Du. cbn [negb]. rewrite I2. auto.
  - destruct (dm_during_spec y st force d shared main tr t Hst ltac:(apply K; simpl; auto) Lm X) as [sh1 [m1 [tr1 [E1 [N [L1 _]]]]]]. rewrite E1 in H. cbn [obind] in H.
    destruct (pass_during y st force l sh1 m1 tr1 (snd (pick_looks st (dm_configs d) t))) as [[[[[r1 s2] m2] tr2] t2]| | |] eqn:E; cbn [obind] in H; try discriminate. inversion H; subst.
    destruct (IH _ _ _ _ _ _ _ _ _ Hst ltac:(intros; apply K; simpl; auto) L1 E) as [I1 I2]. rewrite N in *.
    assert (due (is_null shared) d = true) as Du by (unfold due; rewrite X; auto).
    assert (forall b, due b (picked (fst (pick_looks st (dm_configs d) t)) force d) = due b d) as Dp by (intros; unfold due; rewrite picked_aware; auto).
    cbn [filter]. rewrite !Dp, Dn, Du. cbn [negb sweep]. destruct (pick_looks st (dm_configs d) t) as [o t1]. cbn [fst snd] in *. rewrite I1. auto.
Qed.

Lemma due_unaware : forall d, due false d = negb (dm_aware d).
Proof. intros. unfold due. destruct (dm_aware d); auto. Qed.
Lemma due_aware : forall d, due true d = dm_aware d.
Proof. intros. unfold due. destruct (dm_aware d); auto. Qed.

Lemma do_during_sweep : forall y st force need m m' n, structure_ok y -> good y m -> do_apply_during y st force need m = Ok (m', n) ->
  sweep st force (apply_order (ds_list (mg_doms m))) 0 = (apply_order (ds_list (mg_doms m')), n).
Proof.
  intros y st force need m m' n Hst [K L] H. unfold do_apply_during, ds_apply_during in H.
  destruct (pass_during_spec y st force (ds_list (mg_doms m)) (Some (resync_syncers y need)) (mg_main m) (mg_trace m) 0 Hst K L)
    as [l1 [sh1 [main1 [tr1 [t1 [E1 [T1 [L1 [F1 _]]]]]]]]].
  pose proof (pass_sweep _ _ _ _ _ _ _ _ _ _ _ _ _ Hst K L E1) as [S1 S2].
  rewrite E1 in H. cbn [obind is_null negb] in *. destruct (sync_set y (match sh1 with Some c => c | None => [] end) main1 tr1) as [[ok errs] tr2].
  assert (forall d, In d l1 -> domain_ok y d) as K1.
  { intros d Hd. destruct (Forall2_In_r _ _ _ _ _ _ F1 Hd) as [k [Hk T]]. eapply handled_ok; eauto. }
  destruct (pass_during_spec y st force l1 None main1 tr2 t1 Hst K1 L1) as [l2 [sh2 [main2 [tr3 [t2 [E2 _]]]]]].
  pose proof (pass_sweep _ _ _ _ _ _ _ _ _ _ _ _ _ Hst K1 L1 E2) as [S3 S4]. rewrite E2 in H. cbn [obind is_null negb] in *. inversion H; subst.
  cbn [mg_doms with_crits with_trace with_main with_doms ds_list]. unfold apply_order.
  rewrite !(filter_ext _ _ due_unaware) in *. rewrite !(filter_ext _ _ due_aware) in *. rewrite sweep_app, S1. cbn [fst snd]. rewrite <- S2, S3. cbn [fst snd]. rewrite <- S4. auto.
Qed.

Lemma pick_judged : forall st cs d t, scoped cs d -> steady st cs t (snd (pick_looks st (dm_configs d) t)) ->
  judged_in cs d (picked (fst (pick_looks st (dm_configs d) t)) false d).
Proof.
  intros st cs d t Sc St. split; [apply picked_last|]. rewrite (pick_steady st cs (dm_configs d) t St). split.
  - intros c Fm. apply (applicable_first cs d c Sc) in Fm. unfold dm_applicable in Fm. rewrite Fm. auto.
  - intros Nm. apply (applicable_none cs d Sc) in Nm. unfold dm_applicable in Nm. rewrite Nm. auto.
Qed.

Lemma sweep_after : forall st cs l t, (forall d, In d l -> scoped cs d) -> (forall u, t <= u -> st u = cs) -> Forall2 (judged_in cs) l (fst (sweep st false l t)).
Proof.
  intros st cs l. induction l as [|d l IH]; intros t Sc St; [constructor|]. cbn [sweep].
  pose proof (pick_judged st cs d t ltac:(apply Sc; simpl; auto) ltac:(intros u Hu; apply St; lia)) as P. pose proof (pick_later st (dm_configs d) t) as L.
  destruct (pick_looks st (dm_configs d) t) as [o t1]. cbn [fst snd] in *. specialize (IH t1 ltac:(intros; apply Sc; simpl; auto) ltac:(intros; apply St; lia)).
  destruct (sweep st false l t1) as [l' t2]. cbn [fst] in *. constructor; auto.
Qed.

Lemma sweep_change : forall st cs1 cs2 t0 l t, (forall d, In d l -> scoped cs1 d) -> (forall d, In d l -> scoped cs2 d) ->
  (forall u, u < t0 -> st u = cs1) -> (forall u, t0 <= u -> st u = cs2) ->
  exists l1 l2 l3 r1 r2 r3, l = l1 ++ l2 ++ l3 /\ fst (sweep st false l t) = r1 ++ r2 ++ r3 /\ Forall2 (judged_in cs1) l1 r1
    /\ List.length l2 <= 1 /\ Forall2 same_but_last l2 r2 /\ Forall2 (judged_in cs2) l3 r3.
Proof.
  intros st cs1 cs2 t0 l. induction l as [|d l IH]; intros t S1 S2 B A.
  - exists [], [], [], [], [], []. repeat split; auto; constructor.
  - destruct (le_lt_dec t0 t) as [Q|Q].
    + exists [], [], (d :: l), [], [], (fst (sweep st false (d :: l) t)). repeat split; auto. apply sweep_after; auto. intros. apply A. lia.
    + cbn [sweep]. pose proof (pick_judged st cs1 d t ltac:(apply S1; simpl; auto)) as P.
      destruct (pick_looks st (dm_configs d) t) as [o t1]. cbn [fst snd] in *. destruct (le_lt_dec t1 t0) as [W|W].
      * specialize (P ltac:(intros u Hu; apply B; lia)).
        destruct (IH t1 ltac:(intros; apply S1; simpl; auto) ltac:(intros; apply S2; simpl; auto) B A) as [l1 [l2 [l3 [r1 [r2 [r3 [E1 [E2 [F1 [F2 [F3 F4]]]]]]]]]]].
        destruct (sweep st false l t1) as [l' t2]. cbn [fst] in *. exists (d :: l1), l2, l3, (picked o false d :: r1), r2, r3. subst l l'. repeat split; auto.
      * pose proof (sweep_after st cs2 l t1 ltac:(intros; apply S2; simpl; auto) ltac:(intros; apply A; lia)) as F.
        destruct (sweep st false l t1) as [l' t2]. cbn [fst] in *. exists [], [d], l, [], [picked o false d], l'. repeat split; auto. constructor; [apply picked_last|constructor].
Qed.
