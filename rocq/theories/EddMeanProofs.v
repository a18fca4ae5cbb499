(** EDD files: what the rules mean, and which places there are. *)
From Coq Require Import List Arith Bool Ascii String Lia Permutation.
From Verif Require Import Base BaseProofs TextSpec CriterionModel CriterionSpec RuleModel RuleSpec RuleProofs EddModel EddSpec EddProofs.
Import ListNotations.
Local Open Scope nat_scope.

(** ** Which rules concern a place *)

Lemma own_rules_In : forall r n, In r (own_rules n) <-> In r (ed_children n) /\ is_rule r = true.
Proof. intros r n. apply filter_In. Qed.

Lemma known_In : forall g w, In g (known w) <->
  is_group g = true /\ exists b p o1 o2, w = o1 ++ (b, p) :: o2 /\ (In g b \/ g = p).
Proof.
  intros g. induction w as [|[b n] o IH]; cbn [known].
  - split; [intros []|]. intros [_ [b [p [o1 [o2 [H _]]]]]]. destruct o1; discriminate H.
  - rewrite in_app_iff, IH, filter_In, in_app_iff. split.
    + intros [[H1 [b' [p [o1 [o2 [-> H2]]]]]]|[H1 H2]].
      * split; [exact H1|]. exists b', p, ((b, n) :: o1), o2. auto.
      * split; [exact H2|]. exists b, n, [], o. split; [reflexivity|]. destruct H1 as [H1|[H1|[]]]; [left|right]; congruence.
    + intros [H1 [b' [p [o1 [o2 [H2 H3]]]]]]. destruct o1 as [|[b1 n1] o1]; injection H2 as -> -> ->.
      * right. split; [|exact H1]. destruct H3 as [H3|H3]; [left; exact H3|right; left; congruence].
      * left. split; [exact H1|]. exists b', p, o1, o2. auto.
Qed.

Lemma concerns_In : forall r w, concerns r w <-> In r (rules_for w).
Proof.
  intros r. induction w as [|[b n] o IH]; cbn [rules_for].
  - split; [intros H; inversion H|intros []].
  - rewrite in_app_iff, <- IH. unfold rules_there. rewrite in_app_iff, own_rules_In. split.
    + intros H. inversion H as [b0 n0 o0 C1 C2|b0 n0 o0 g C1 C2 C3 C4 C5 C6|b0 n0 o0 C1]; subst.
      * right. right. auto.
      * right. left. rewrite C1. apply in_flat_map. exists g. rewrite own_rules_In. split; [|auto].
        apply filter_In. split; [|apply str_eqb_eq; assumption]. apply in_app_iff.
        destruct C4 as [C4|C4]; [right; apply filter_In; auto|left; apply known_In; auto].
      * left. exact C1.
    + intros [H|[H|[H1 H2]]].
      * apply cn_outer. exact H.
      * destruct (is_conf n) eqn:E; [|destruct H]. apply in_flat_map in H. destruct H as [g [H1 H2]].
        apply filter_In in H1. destruct H1 as [H1 H3]. apply str_eqb_eq in H3. apply own_rules_In in H2. destruct H2 as [H2 H4].
        apply in_app_iff in H1. destruct H1 as [H1|H1].
        -- apply known_In in H1. destruct H1 as [H1 H5]. eapply cn_type; eauto.
        -- apply filter_In in H1. destruct H1 as [H1 H5]. eapply cn_type; eauto.
      * apply cn_own; assumption.
Qed.

(** ** What a rule means *)

Lemma spaces_nil : spaces [].
Proof. intros c []. Qed.

Lemma spaces_one : spaces (lit " ").
Proof. intros c [<-|[]]. reflexivity. Qed.

Lemma gap_spaces : forall d, spaces (gap d).
Proof. intros d c H. apply repeat_spec in H. exact H. Qed.

Lemma rule_text_pad : forall cs r s a b, spaces a -> spaces b -> rule_text cs r s -> rule_text cs r (a ++ s ++ b).
Proof.
  intros cs r s a b Ha Hb H. destruct H as [n i k w value v a' b' c d|all l body a' d].
  - replace (a ++ (a' ++ n ++ b' ++ verb_text w ++ c ++ value ++ d) ++ b)
      with ((a ++ a') ++ n ++ b' ++ verb_text w ++ c ++ value ++ (d ++ b)) by (rewrite <- ?app_assoc; reflexivity).
    econstructor; eauto; apply spaces_app; auto.
  - replace (a ++ (a' ++ (if all then lit "All" else lit "Any") ++ lit "{" ++ body ++ lit "}" ++ d) ++ b)
      with ((a ++ a') ++ (if all then lit "All" else lit "Any") ++ lit "{" ++ body ++ lit "}" ++ (d ++ b)) by (rewrite <- ?app_assoc; reflexivity).
    constructor; auto; apply spaces_app; auto.
Qed.

Lemma rules_text_pad : forall cs l s, rules_text cs l s -> forall a b, spaces a -> spaces b -> rules_text cs l (a ++ s ++ b).
Proof.
  intros cs l s H. induction H as [x Hx|r s Hr|r s l s' Hr Hl IH Hn]; intros a b Ha Hb.
  - constructor. apply spaces_app. split; [exact Ha|]. apply spaces_app; auto.
  - constructor. apply rule_text_pad; auto.
  - replace (a ++ (s ++ lit "," ++ s') ++ b) with ((a ++ s ++ []) ++ lit "," ++ ([] ++ s' ++ b))
      by (rewrite ?app_nil_r, <- ?app_assoc; reflexivity).
    constructor; [apply rule_text_pad; auto using spaces_nil|apply IH; auto using spaces_nil|exact Hn].
Qed.

Lemma joined_rules : forall cs l rs, Forall2 (fun s r => rule_text cs r s) l rs -> rules_text cs rs (joined (lit " , ") l).
Proof.
  intros cs l rs H. induction H as [|s r l rs H1 H2 IH]; [constructor; exact spaces_nil|].
  destruct H2 as [|s2 r2 l rs H2 H3]; [constructor; exact H1|].
  change (joined (lit " , ") (s :: s2 :: l)) with (s ++ lit " , " ++ joined (lit " , ") (s2 :: l)).
  replace (s ++ lit " , " ++ joined (lit " , ") (s2 :: l)) with (([] ++ s ++ lit " ") ++ lit "," ++ (lit " " ++ joined (lit " , ") (s2 :: l) ++ []))
    by (rewrite ?app_nil_r; cbn [app]; rewrite <- ?app_assoc; reflexivity).
  constructor; [apply rule_text_pad; auto using spaces_nil, spaces_one| |discriminate].
  apply rules_text_pad; auto using spaces_nil, spaces_one.
Qed.

Lemma says_list : forall cs l rs d, Forall2 (says cs) l rs -> (forall n r, In n l -> says cs n r -> rule_text cs r (rule_line d n)) ->
  rules_text cs rs (joined (lit " , ") (map (rule_line d) l)).
Proof.
  intros cs l rs d H G. apply joined_rules. induction H as [|n r l rs H1 H2 IH]; cbn [map]; constructor.
  - apply G; [left; reflexivity|exact H1].
  - apply IH. intros m s I. apply G. right. exact I.
Qed.

Lemma line_operator : forall (all : bool) cs rs d l o, eo_name o = (if all then lit "ALL" else lit "ANY") ->
  rules_text cs rs (joined (lit " , ") (map (rule_line (S d)) l)) ->
  exists body, rules_text cs rs body /\ rule_line d (Edd KOperator o l)
    = gap d ++ (if all then lit "All" else lit "Any") ++ lit "{" ++ body ++ lit "}".
Proof.
  intros all cs rs d l o E H. exists (lit " " ++ joined (lit " , ") (map (rule_line (S d)) l) ++ (gap d ++ lit " ")). split.
  - apply rules_text_pad; [exact H|exact spaces_one|]. apply spaces_app. split; [apply gap_spaces|exact spaces_one].
  - cbn [rule_line]. rewrite E. f_equal.
    replace (if str_eqb (if all then lit "ALL" else lit "ANY") (lit "ANY") then lit "Any" else lit "All")
      with (if all then lit "All" else lit "Any") by (destruct all; reflexivity).
    f_equal. cbn [lit list_ascii_of_string app]. rewrite <- ?app_assoc. reflexivity.
Qed.

Lemma says_line : forall cs n r, says cs n r -> forall d, rule_text cs r (rule_line d n).
Proof.
  intros cs n. induction n as [k o l IH] using edd_rec'. intros r H d. inversion H; subst.
  - cbn [rule_line eo_name eo_value eo_elem].
    replace (gap d ++ n ++ lit " " ++ verb_text w ++ lit " " ++ value)
      with (gap d ++ n ++ lit " " ++ verb_text w ++ lit " " ++ value ++ []) by (rewrite app_nil_r; reflexivity).
    econstructor; eauto using gap_spaces, spaces_one, spaces_nil; discriminate.
  - destruct (line_operator false cs rs d l o) as [body [B E]]; [assumption| |].
    { apply says_list; [assumption|]. intros m s I S. rewrite Forall_forall in IH. apply IH; assumption. }
    rewrite E, <- (app_nil_r (lit "}")). apply (rt_comp cs false); auto using gap_spaces, spaces_nil.
  - destruct (line_operator true cs rs d l o) as [body [B E]]; [assumption| |].
    { apply says_list; [assumption|]. intros m s I S. rewrite Forall_forall in IH. apply IH; assumption. }
    rewrite E, <- (app_nil_r (lit "}")). apply (rt_comp cs true); auto using gap_spaces, spaces_nil.
Qed.

Lemma says_same : forall cs n r1 r2, (forall i k, nth_error cs i = Some k -> NoDup (map fst (cty_map (cr_type k)))) ->
  says cs n r1 -> says cs n r2 -> r1 = r2.
Proof.
  intros cs n r1 r2 U H1 H2.
  assert (forall r, says cs n r -> parse_text cs (lit "All{" ++ rule_line 0 n ++ lit "}") = Ok (RComp true [r])) as G.
  { intros r H. apply parse_text_complete; [exact U|]. exists true, [r], [], (rule_line 0 n).
    split; [reflexivity|]. split; [exact spaces_nil|]. split; [|reflexivity]. constructor. apply says_line. exact H. }
  pose proof (G r1 H1) as E1. rewrite (G r2 H2) in E1. congruence.
Qed.

Lemma says_all_list : forall cs l, (forall n, In n l -> exists r, says cs n r) -> exists rs, Forall2 (says cs) l rs.
Proof.
  intros cs. induction l as [|n l IH]; intros H; [exists []; constructor|].
  destruct (H n (or_introl eq_refl)) as [r R]. destruct IH as [rs S]; [intros m I; apply H; right; exact I|].
  exists (r :: rs). constructor; assumption.
Qed.

Lemma holds_list : forall cs l rs state, (forall i k, nth_error cs i = Some k -> NoDup (map fst (cty_map (cr_type k)))) ->
  Forall2 (says cs) l rs ->
  ((forall r, In r rs -> holds state r) <-> (forall n r, In n l -> says cs n r -> holds state r)).
Proof.
  intros cs l rs state U H. induction H as [|n r l rs H1 H2 IH].
  - split; intros _ ? []; intros; contradiction.
  - split; intros G.
    + intros m s [<-|I] S; [rewrite <- (says_same cs n r s U H1 S); apply G; left; reflexivity|].
      apply IH with (n := m); auto. intros x Ix. apply G. right. exact Ix.
    + intros s [<-|I]; [apply (G n); [left; reflexivity|exact H1]|].
      apply IH; auto. intros m x Im. apply G. right. exact Im.
Qed.

Lemma rule_for_source : forall cs w rs, Forall2 (says cs) (rules_for w) rs ->
  exists r, source_text cs r (rule_for w) /\ ((exists l : nat, r = RComp true rs) \/ rs = [r]).
Proof.
  intros cs w rs H. unfold rule_for.
  assert (exists r, source_text cs r (lit "All{ " ++ joined (lit " , ") (map (rule_line 1) (rules_for w)) ++ lit " }") /\ ((exists l : nat, r = RComp true rs) \/ rs = [r])) as G.
  { exists (RComp true rs). split; [|left; exists 0; reflexivity]. exists true, rs, [], (lit " " ++ joined (lit " , ") (map (rule_line 1) (rules_for w)) ++ lit " ").
    split; [reflexivity|]. split; [exact spaces_nil|]. split.
    - apply rules_text_pad; auto using spaces_one. apply says_list; [exact H|]. intros n r _ S. apply says_line. exact S.
    - cbn [lit list_ascii_of_string app]. rewrite <- ?app_assoc. reflexivity. }
  destruct (rules_for w) as [|[k o l] [|n2 l2]]; [exact G| |destruct k; exact G].
  destruct k; try exact G. clear G. inversion H as [|x r y rs' H1 H2]; subst. inversion H2; subst.
  exists r. split; [|right; reflexivity]. inversion H1; subst.
  - destruct (line_operator false cs rs 0 l o) as [body [B E]]; [assumption| |].
    { apply says_list; [assumption|]. intros m s _ S. apply says_line. exact S. }
    exists false, rs, (gap 0), body. auto using gap_spaces.
  - destruct (line_operator true cs rs 0 l o) as [body [B E]]; [assumption| |].
    { apply says_list; [assumption|]. intros m s _ S. apply says_line. exact S. }
    exists true, rs, (gap 0), body. auto using gap_spaces.
Qed.

Lemma rule_meaning : forall cs w, (forall i k, nth_error cs i = Some k -> NoDup (map fst (cty_map (cr_type k)))) ->
  (forall n, concerns n w -> exists r, says cs n r) -> forall old,
  exists r, set_application_rule cs (rule_for w) old = Ok (true, Some r)
    /\ forall state, holds state r <-> (forall n s, concerns n w -> says cs n s -> holds state s).
Proof.
  intros cs w U H old. destruct (says_all_list cs (rules_for w)) as [rs S]; [intros n I; apply H, concerns_In, I|].
  destruct (rule_for_source cs w rs S) as [r [T R]]. exists r. split.
  - unfold set_application_rule. rewrite (parse_text_complete cs r _ U T). reflexivity.
  - intros state. pose proof (holds_list cs _ rs state U S) as L.
    transitivity (forall s, In s rs -> holds state s); [|rewrite L; split; intros G n s I; apply G, concerns_In; exact I].
    destruct R as [[_ ->]| ->].
    + split; [intros X; inversion X; assumption|apply holds_all].
    + split; [intros X s [<-|[]]; exact X|intros X; apply X; left; reflexivity].
Qed.

(** ** Places *)

Inductive under (w : place) : place -> Prop :=
| under_same : under w w
| under_child : forall b' p u b n a, under w ((b', p) :: u) -> ed_children p = b ++ n :: a -> under w ((b, n) :: (b', p) :: u).

Lemma under_step : forall b n w v, under ((b, n) :: w) v <->
  v = (b, n) :: w \/ exists b' m a', ed_children n = b' ++ m :: a' /\ under ((b', m) :: (b, n) :: w) v.
Proof.
  intros b n w v. split.
  - intros H. induction H as [|b1 p u b2 m a H IH E]; [left; reflexivity|right].
    destruct IH as [IH|[b' [m' [a' [E' IH]]]]].
    + injection IH as -> -> ->. exists b2, m, a. split; [exact E|constructor].
    + exists b', m', a'. split; [exact E'|]. econstructor; eauto.
  - intros [->|[b' [m [a' [E H]]]]]; [constructor|]. remember ((b', m) :: (b, n) :: w) as x eqn:Ex. induction H; subst.
    + econstructor; [constructor|exact E].
    + econstructor; [apply IHunder; reflexivity|eassumption].
Qed.

Lemma file_under : forall doc v, in_file doc v <-> exists b n a, doc = b ++ n :: a /\ under [(b, n)] v.
Proof.
  intros doc v. split.
  - intros H. induction H as [b n a ->|b' p w b n a H IH E]; [exists b, n, a; split; [reflexivity|constructor]|].
    destruct IH as [b1 [n1 [a1 [-> U]]]]. exists b1, n1, a1. split; [reflexivity|]. econstructor; eauto.
  - intros [b [n [a [-> H]]]]. induction H as [|b' p u b1 n1 a1 H IH E]; [econstructor; reflexivity|]. econstructor; eauto.
Qed.

Lemma under_suffix : forall w v, under w v -> exists u, v = u ++ w.
Proof.
  intros w v H. induction H as [|b' p u b n a H [x ->] E]; [exists []; reflexivity|]. exists ((b, n) :: x). reflexivity.
Qed.

Lemma file_split : forall doc u w, w <> [] -> in_file doc (u ++ w) -> in_file doc w /\ under w (u ++ w).
Proof.
  intros doc u w N. induction u as [|[b n] u IH]; intros H; [split; [exact H|constructor]|].
  cbn [app] in H |- *. destruct (u ++ w) as [|[b' p] x] eqn:Q.
  - destruct u; [|discriminate Q]. cbn in Q. contradiction.
  - inversion H; subst. destruct IH as [A B]; [assumption|]. split; [exact A|]. econstructor; eauto.
Qed.

Lemma file_app : forall doc w v, in_file doc w -> under w v -> in_file doc v.
Proof. intros doc w v H U. induction U as [|b' p u b n a U IH E]; [exact H|]. econstructor; eauto. Qed.

Lemma shaped_child : forall parent n b m a, shaped parent n -> ed_children n = b ++ m :: a -> shaped (ed_kind n) m.
Proof.
  intros parent n b m a H E. inversion H as [k o l P F]; subst. cbn [ed_children ed_kind] in *. subst l.
  rewrite Forall_forall in F. apply F. apply in_app_iff. right. left. reflexivity.
Qed.

Lemma places_in_In : forall f w l b v, In v (places_in f w b l) <-> exists b' m a', l = b' ++ m :: a' /\ In v (f w m (b ++ b')).
Proof.
  intros f w. induction l as [|m r IH]; intros b v; cbn [places_in].
  - split; [intros []|]. intros [b' [m [a' [H _]]]]. destruct b'; discriminate H.
  - rewrite in_app_iff, IH. split.
    + intros [H|[b' [m' [a' [-> H]]]]].
      * exists [], m, r. split; [reflexivity|]. rewrite app_nil_r. exact H.
      * exists (m :: b'), m', a'. split; [reflexivity|]. rewrite <- app_assoc in H. exact H.
    + intros [[|m1 b'] [m' [a' [E H]]]]; injection E as <- E.
      * left. rewrite app_nil_r in H. exact H.
      * right. exists b', m', a'. split; [exact E|]. rewrite <- app_assoc. exact H.
Qed.

(** No domain is below a domain; what can have a domain below it is a group of domains. *)
Lemma no_domain_below : forall n parent w b v, shaped parent n -> ed_kind n <> KGroupDomain -> ed_kind n <> KRoot ->
  under ((b, n) :: w) v -> ed_kind (target v) = KDomain -> v = (b, n) :: w /\ ed_kind n = KDomain.
Proof.
  induction n as [k o l IH] using edd_rec'. intros parent w b v Hs N R H T. cbn [ed_kind] in *. apply under_step in H. destruct H as [->|[b' [m [a' [E H]]]]].
  - split; [reflexivity|exact T].
  - exfalso. pose proof (shaped_child _ _ _ _ _ Hs E) as Sm. cbn [ed_kind ed_children] in *. subst l.
    rewrite Forall_forall in IH. specialize (IH m). assert (In m (b' ++ m :: a')) as I by (apply in_app_iff; right; left; reflexivity).
    inversion Sm as [km om lm P F]; subst. cbn [ed_kind] in *.
    destruct (IH I k ((b, Edd k o (b' ++ Edd km om lm :: a')) :: w) b' v) as [-> X]; auto.
    + destruct k; destruct km; try discriminate P; congruence.
    + destruct k; destruct km; try discriminate P; congruence.
    + cbn in X. subst km. destruct k; try discriminate P; congruence.
Qed.

Lemma domain_places_In : forall n parent w b v, shaped parent n -> parent = KRoot \/ parent = KGroupDomain ->
  (In v (domain_places w n b) <-> under ((b, n) :: w) v /\ ed_kind (target v) = KDomain).
Proof.
  induction n as [k o l IH] using edd_rec'. intros parent w b v Hs Hp.
  assert (k <> KGroupDomain -> (In v (if kind_eqb k KDomain then [(b, Edd k o l) :: w] else []) <-> under ((b, Edd k o l) :: w) v /\ ed_kind (target v) = KDomain)) as G.
  { intros N. split.
    - intros H. destruct k; cbn in H; try contradiction. destruct H as [<-|[]]. split; [constructor|reflexivity].
    - intros [U T]. destruct (no_domain_below _ _ w b v Hs) as [-> X]; auto.
      + inversion Hs as [? ? ? P F]; subst. destruct Hp as [-> | ->]; destruct k; try discriminate P; discriminate.
      + cbn in X. subst k. left. reflexivity. }
  destruct (kind_eqb k KGroupDomain) eqn:Ek.
  - assert (k = KGroupDomain) as -> by (destruct k; try discriminate Ek; reflexivity). clear G.
    rewrite domain_places_group, places_in_In, under_step. cbn [app ed_children]. split.
    + intros [b' [m [a' [-> H]]]]. rewrite Forall_forall in IH.
      apply (IH m) with (parent := KGroupDomain) in H; [|apply in_app_iff; right; left; reflexivity|exact (shaped_child _ _ b' m a' Hs eq_refl)|right; reflexivity].
      destruct H as [U T]. split; [|exact T]. right. exists b', m, a'. auto.
    + intros [[->|[b' [m [a' [-> U]]]]] T]; [discriminate T|]. exists b', m, a'. split; [reflexivity|].
      rewrite Forall_forall in IH. apply (IH m) with (parent := KGroupDomain); auto.
      * apply in_app_iff; right; left; reflexivity.
      * exact (shaped_child _ _ b' m a' Hs eq_refl).
  - rewrite <- G by (intros ->; discriminate Ek). destruct k; try discriminate Ek; reflexivity.
Qed.

Lemma domains_of_In : forall doc w, Forall (shaped KRoot) doc -> (In w (domains_of doc) <-> in_file doc w /\ ed_kind (target w) = KDomain).
Proof.
  intros doc w Hs. unfold domains_of. rewrite places_in_In, file_under. split.
  - intros [b [n [a [-> H]]]]. cbn [app] in H. apply Forall_elt in Hs. apply domain_places_In with (parent := KRoot) in H; auto.
    destruct H as [U T]. split; [|exact T]. exists b, n, a. auto.
  - intros [[b [n [a [-> U]]]] T]. exists b, n, a. split; [reflexivity|]. apply Forall_elt in Hs.
    apply domain_places_In with (parent := KRoot); auto.
Qed.

Lemma no_conf_below : forall n parent w b v, shaped parent n -> ed_kind n <> KGroupConf -> is_domain n = false -> ed_kind n <> KRoot ->
  under ((b, n) :: w) v -> ed_kind (target v) = KConf -> v = (b, n) :: w /\ ed_kind n = KConf.
Proof.
  induction n as [k o l IH] using edd_rec'. intros parent w b v Hs N D R H T. cbn [ed_kind] in *. apply under_step in H. destruct H as [->|[b' [m [a' [E H]]]]].
  - split; [reflexivity|exact T].
  - exfalso. pose proof (shaped_child _ _ _ _ _ Hs E) as Sm. cbn [ed_kind ed_children] in *. subst l.
    rewrite Forall_forall in IH. specialize (IH m). assert (In m (b' ++ m :: a')) as I by (apply in_app_iff; right; left; reflexivity).
    inversion Sm as [km om lm P F]; subst. cbn [ed_kind] in *. unfold is_domain in *. cbn [ed_kind] in *.
    destruct (IH I k ((b, Edd k o (b' ++ Edd km om lm :: a')) :: w) b' v) as [-> X]; auto.
    + destruct k; destruct km; try discriminate P; try discriminate D; congruence.
    + destruct k; destruct km; try discriminate P; try discriminate D; congruence.
    + destruct k; destruct km; try discriminate P; try discriminate D; congruence.
    + cbn in X. subst km. destruct k; try discriminate P; try discriminate D; congruence.
Qed.

Lemma conf_places_In : forall n parent w b v, shaped parent n -> parent = KDomain \/ parent = KGroupConf ->
  (In v (conf_places w n b) <-> under ((b, n) :: w) v /\ ed_kind (target v) = KConf).
Proof.
  induction n as [k o l IH] using edd_rec'. intros parent w b v Hs Hp.
  assert (k <> KGroupConf -> (In v (if kind_eqb k KConf then [(b, Edd k o l) :: w] else []) <-> under ((b, Edd k o l) :: w) v /\ ed_kind (target v) = KConf)) as G.
  { intros N. split.
    - intros H. destruct k; cbn in H; try contradiction. destruct H as [<-|[]]. split; [constructor|reflexivity].
    - intros [U T]. destruct (no_conf_below _ _ w b v Hs) as [-> X]; auto.
      + inversion Hs as [? ? ? P F]; subst. destruct Hp as [-> | ->]; destruct k; try discriminate P; reflexivity.
      + inversion Hs as [? ? ? P F]; subst. destruct Hp as [-> | ->]; destruct k; try discriminate P; discriminate.
      + cbn in X. subst k. left. reflexivity. }
  destruct (kind_eqb k KGroupConf) eqn:Ek.
  - assert (k = KGroupConf) as -> by (destruct k; try discriminate Ek; reflexivity). clear G.
    rewrite conf_places_group, places_in_In, under_step. cbn [app ed_children]. split.
    + intros [b' [m [a' [-> H]]]]. rewrite Forall_forall in IH.
      apply (IH m) with (parent := KGroupConf) in H; [|apply in_app_iff; right; left; reflexivity|exact (shaped_child _ _ b' m a' Hs eq_refl)|right; reflexivity].
      destruct H as [U T]. split; [|exact T]. right. exists b', m, a'. auto.
    + intros [[->|[b' [m [a' [-> U]]]]] T]; [discriminate T|]. exists b', m, a'. split; [reflexivity|].
      rewrite Forall_forall in IH. apply (IH m) with (parent := KGroupConf); auto.
      * apply in_app_iff; right; left; reflexivity.
      * exact (shaped_child _ _ b' m a' Hs eq_refl).
  - rewrite <- G by (intros ->; discriminate Ek). destruct k; try discriminate Ek; reflexivity.
Qed.

Lemma in_file_shaped : forall doc w, Forall (shaped KRoot) doc -> in_file doc w -> exists p, shaped p (target w).
Proof.
  intros doc w Hs H. induction H as [b n a ->|b' p w b n a H IH E].
  - exists KRoot. apply Forall_elt in Hs. exact Hs.
  - destruct IH as [q Hq]. exists (ed_kind p). eapply shaped_child; eauto.
Qed.

Lemma confs_of_In : forall doc w v, Forall (shaped KRoot) doc -> In w (domains_of doc) ->
  (In v (confs_of w) <-> in_file doc v /\ ed_kind (target v) = KConf /\ exists u, v = u ++ w).
Proof.
  intros doc w v Hs Hw. apply domains_of_In in Hw; [|exact Hs]. destruct Hw as [Hf Hk].
  destruct (in_file_shaped _ _ Hs Hf) as [p Hp]. destruct w as [|[b n] w]; [inversion Hf|]. cbn [target] in *.
  unfold confs_of. rewrite places_in_In. cbn [app]. split.
  - intros [b' [m [a' [E H]]]]. apply conf_places_In with (parent := KDomain) in H; [|rewrite <- Hk; eapply shaped_child; eauto|left; reflexivity].
    destruct H as [U T]. assert (under ((b, n) :: w) v) as V by (apply under_step; right; eauto).
    split; [eapply file_app; eauto|]. split; [exact T|]. apply under_suffix. exact V.
  - intros [Hv [T [u ->]]]. apply file_split in Hv; [|discriminate]. destruct Hv as [_ U]. apply under_step in U.
    destruct U as [U|[b' [m [a' [E U]]]]]; [rewrite U in T; cbn in T; congruence|].
    exists b', m, a'. split; [exact E|]. apply conf_places_In with (parent := KDomain); [rewrite <- Hk; eapply shaped_child; eauto|left; reflexivity|].
    split; assumption.
Qed.

Lemma NoDup_app_intro : forall A (l1 l2 : list A), NoDup l1 -> NoDup l2 -> (forall x, In x l1 -> In x l2 -> False) -> NoDup (l1 ++ l2).
Proof.
  induction l1 as [|x l1 IH]; intros l2 H1 H2 H; [exact H2|]. inversion H1; subst. cbn [app]. constructor.
  - rewrite in_app_iff. intros [I|I]; [contradiction|]. apply (H x); [left; reflexivity|exact I].
  - apply IH; auto. intros y I. apply H. right. exact I.
Qed.

Lemma places_in_NoDup : forall f w,
  (forall m b v, In v (f w m b) -> exists u, v = u ++ (b, m) :: w) ->
  forall l b, (forall b1 m a1, l = b1 ++ m :: a1 -> NoDup (f w m (b ++ b1))) -> NoDup (places_in f w b l).
Proof.
  intros f w Hu. induction l as [|m r IH]; intros b H; cbn [places_in]; [constructor|].
  apply NoDup_app_intro.
  - specialize (H [] m r eq_refl). rewrite app_nil_r in H. exact H.
  - apply IH. intros b1 m1 a1 ->. specialize (H (m :: b1) m1 a1 eq_refl). rewrite <- app_assoc. exact H.
  - intros v H1 H2. apply Hu in H1. destruct H1 as [u1 ->]. apply places_in_In in H2. destruct H2 as [b1 [m1 [a1 [-> H2]]]].
    apply Hu in H2. destruct H2 as [u2 E].
    assert (List.length u1 = List.length u2) as L by (apply (f_equal (@List.length _)) in E; rewrite !app_length in E; cbn [List.length] in E; lia).
    revert u2 E L. induction u1 as [|x u1 IHu]; intros [|y u2] E L; try discriminate L.
    + injection E as E _. apply (f_equal (@List.length _)) in E. rewrite !app_length in E. cbn [List.length] in E. lia.
    + injection E as _ E. injection L as L. exact (IHu u2 E L).
Qed.

Lemma conf_places_place : forall n w b v, In v (conf_places w n b) -> exists u, v = u ++ (b, n) :: w.
Proof.
  induction n as [k o l IH] using edd_rec'. intros w b v H. destruct k; try (destruct H; fail).
  - rewrite conf_places_group in H. apply places_in_In in H. destruct H as [b1 [m [a1 [-> H]]]]. rewrite Forall_forall in IH.
    apply (IH m) in H; [|apply in_app_iff; right; left; reflexivity]. destruct H as [u ->]. exists (u ++ [([] ++ b1, m)]). rewrite <- app_assoc. reflexivity.
  - destruct H as [<-|[]]. exists []. reflexivity.
Qed.

Lemma domain_places_place : forall n w b v, In v (domain_places w n b) -> exists u, v = u ++ (b, n) :: w.
Proof.
  induction n as [k o l IH] using edd_rec'. intros w b v H. destruct k; try (destruct H; fail).
  - rewrite domain_places_group in H. apply places_in_In in H. destruct H as [b1 [m [a1 [-> H]]]]. rewrite Forall_forall in IH.
    apply (IH m) in H; [|apply in_app_iff; right; left; reflexivity]. destruct H as [u ->]. exists (u ++ [([] ++ b1, m)]). rewrite <- app_assoc. reflexivity.
  - destruct H as [<-|[]]. exists []. reflexivity.
Qed.

Lemma conf_places_NoDup : forall n w b, NoDup (conf_places w n b).
Proof.
  induction n as [k o l IH] using edd_rec'. intros w b. destruct k; try (constructor; fail).
  - rewrite conf_places_group. apply places_in_NoDup; [intros; apply conf_places_place; assumption|]. intros b1 m a1 ->. rewrite Forall_forall in IH. apply IH.
    apply in_app_iff. right. left. reflexivity.
  - constructor; [intros []|constructor].
Qed.

Lemma domain_places_NoDup : forall n w b, NoDup (domain_places w n b).
Proof.
  induction n as [k o l IH] using edd_rec'. intros w b. destruct k; try (constructor; fail).
  - rewrite domain_places_group. apply places_in_NoDup; [intros; apply domain_places_place; assumption|]. intros b1 m a1 ->. rewrite Forall_forall in IH. apply IH.
    apply in_app_iff. right. left. reflexivity.
  - constructor; [intros []|constructor].
Qed.

Lemma domains_of_NoDup : forall doc, NoDup (domains_of doc).
Proof. intros doc. apply places_in_NoDup; [intros; apply domain_places_place; assumption|]. intros. apply domain_places_NoDup. Qed.

Lemma confs_of_NoDup : forall w, NoDup (confs_of w).
Proof.
  intros [|[b n] w]; [constructor|]. apply places_in_NoDup; [intros; apply conf_places_place; assumption|]. intros. apply conf_places_NoDup.
Qed.

(** ** The parameters of the configurations *)

Lemma conf_listed : forall n w b v, In v (conf_places w n b) -> In (target v) (if kind_eqb (ed_kind n) KConf then [n] else listed n).
Proof.
  induction n as [k o l IH] using edd_rec'. intros w b v H. destruct k; try (destruct H; fail).
  - rewrite conf_places_group in H. apply places_in_In in H. destruct H as [b1 [m [a1 [-> H]]]]. rewrite Forall_forall in IH.
    assert (In m (b1 ++ m :: a1)) as I by (apply in_app_iff; right; left; reflexivity).
    cbn [ed_kind kind_eqb listed]. apply in_app_iff. destruct m as [km om lm].
    destruct km; try (destruct H; fail).
    + apply (IH _ I) in H. right. apply in_flat_map. eexists. split; [exact I|]. exact H.
    + apply (IH _ I) in H. left. apply in_flat_map. eexists. split; [exact I|]. exact H.
  - destruct H as [<-|[]]. left. reflexivity.
Qed.

Lemma confs_listed : forall w v, In v (confs_of w) -> In (target v) (listed (target w)).
Proof.
  intros [|[b [k o l]] w] v H; [destruct H|]. unfold confs_of in H. apply places_in_In in H. destruct H as [b1 [m [a1 [E H]]]].
  cbn [ed_children] in E. subst l. assert (In m (b1 ++ m :: a1)) as I by (apply in_app_iff; right; left; reflexivity).
  cbn [target listed]. apply in_app_iff. destruct m as [km om lm]. destruct km; try (destruct H; fail).
  - apply conf_listed in H. right. apply in_flat_map. eexists. split; [exact I|]. exact H.
  - apply conf_listed in H. left. apply in_flat_map. eexists. split; [exact I|]. exact H.
Qed.

Lemma even_place : forall doc w, Forall even doc -> in_file doc w -> even (target w).
Proof.
  intros doc w He H. induction H as [b n a ->|b' p w b n a H IH E]; [apply Forall_elt in He; exact He|].
  cbn [target] in *. inversion IH as [k o l _ F Q]; subst. cbn [ed_children] in E. subst l. apply Forall_elt in F. exact F.
Qed.

Lemma added_sets : forall doc w v, Forall (shaped KRoot) doc -> Forall even doc -> In w (domains_of doc) -> In v (confs_of w) ->
  Permutation (added w) (map fst (sets (target v))).
Proof.
  intros doc w v Hs He Hw Hv. apply domains_of_In in Hw; [|exact Hs]. destruct Hw as [Hf Hk]. apply confs_listed in Hv.
  pose proof (even_place _ _ He Hf) as Ht. inversion Ht as [k o l Hl F Q]. rewrite Q in *. rewrite <- Q in Hk. cbn [ed_kind] in Hk.
  specialize (Hl (or_introl Hk)). unfold added. rewrite <- Q in *. destruct (listed (Edd k o l)) as [|c r] eqn:El; [destruct Hv|].
  transitivity (map fst (sets c)); [apply elements_sets|]. apply Hl; [left; reflexivity|exact Hv].
Qed.
