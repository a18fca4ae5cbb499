(** Proofs about EDD files. *)
From Coq Require Import List Arith Bool Ascii String Lia Permutation.
From Verif Require Import Base BaseProofs TextSpec CriterionModel CriterionSpec RuleModel RuleSpec RuleProofs EddModel EddSpec.
Import ListNotations.
Local Open Scope nat_scope.

Fixpoint edd_rec' (P : edd -> Prop) (H : forall k o l, Forall P l -> P (Edd k o l)) (n : edd) : P n :=
  match n with
  | Edd k o l =>
      H k o l ((fix go (l : list edd) : Forall P l :=
                  match l with [] => Forall_nil P | m :: r => Forall_cons m (edd_rec' P H m) (go r) end) l)
  end.

Definition go (c : ectx) (l : list edd) : outcome (list edd) :=
  (fix go (c : ectx) (l : list edd) : outcome (list edd) :=
        match l with
        | [] => Ok []
        | m :: r => do x <- propagate c m; do y <- go (fst x) r; Ok (snd x :: y)
        end) c l.

Lemma go_cons : forall c m r, go c (m :: r) = do x <- propagate c m; do y <- go (fst x) r; Ok (snd x :: y).
Proof. reflexivity. Qed.

Lemma propagate_all_go : forall l c, propagate_all c l = go c l.
Proof. reflexivity. Qed.

Lemma rules_of_filter : forall l, rules_of l = filter is_rule l.
Proof.
  intros l. unfold rules_of, of_class. apply filter_ext. intros [k o c]. destruct k; reflexivity.
Qed.
Lemma rules_of_filter' : forall l, of_class [KRule; KOperator] l = filter is_rule l.
Proof.
  intros l. unfold of_class. apply filter_ext. intros [k o c]. destruct k; reflexivity.
Qed.

(** ** Paths *)

Fixpoint pp (ps : list eopts) (n : edd) : edd :=
  match n with
  | Edd k o l =>
      match k with
      | KPath | KGroupPath => Edd k (rename o (joined (lit "/") (map eo_name (ps ++ [o])))) (map (pp (ps ++ [o])) l)
      | _ => n
      end
  end.

Lemma pp_kind : forall ps n, ed_kind (pp ps n) = ed_kind n.
Proof. intros ps [k o l]. destruct k; reflexivity. Qed.

Lemma prop_path : forall n parent, shaped parent n -> is_set n = true \/ is_rule n = true -> forall c,
  propagate c n = Ok (c, pp (cx_paths c) n).
Proof.
  induction n as [k o l IH] using edd_rec'. intros parent H Hk c. inversion H as [k' o' l' Hp Hl]; subst.
  assert (forall c', k = KPath \/ k = KGroupPath -> go c' l = Ok (map (pp (cx_paths c')) l)) as G.
  { intros c' Hk'. clear Hk H Hp. induction l as [|m r IHr]; [reflexivity|]. rewrite go_cons. pose proof (Forall_inv IH) as Hm. pose proof (Forall_inv Hl) as Hs.
    apply Forall_inv_tail in IH. apply Forall_inv_tail in Hl.
    assert (is_set m = true \/ is_rule m = true) as Hk1.
    { inversion Hs as [k1 o1 l1 Hp1 Hl1]; subst. left. destruct Hk'; subst k; destruct k1; try discriminate Hp1; reflexivity. }
    rewrite (Hm k Hs Hk1). cbn [obind fst snd]. rewrite IHr; auto. }
  destruct k; try (destruct Hk as [Hk|Hk]; discriminate Hk); try reflexivity.
  - cbn [propagate]. fold (go (ECtx (cx_domains c) (cx_confs c) (cx_conf_opts c) (cx_rules c) (cx_paths c ++ [o])) l).
    rewrite G by auto. reflexivity.
  - cbn [propagate]. fold (go (ECtx (cx_domains c) (cx_confs c) (cx_conf_opts c) (cx_rules c) (cx_paths c ++ [o])) l).
    rewrite G by auto. reflexivity.
Qed.

Lemma pp_names : forall n ps, path_names (Edd (ed_kind n) (ed_opts n) (map (pp ps) (ed_children n))) = elements (map eo_name ps) n.
Proof.
  induction n as [k o l IH] using edd_rec'. intros ps. cbn [ed_kind ed_opts ed_children path_names elements]. f_equal.
  - clear IH. induction l as [|m r IHr]; [reflexivity|]. cbn [map flat_map]. rewrite IHr. f_equal.
    destruct m as [k1 o1 l1]; destruct k1; try reflexivity. cbn [pp rename eo_name]. rewrite map_app. reflexivity.
  - induction l as [|m r IHr]; [reflexivity|]. inversion IH; subst. cbn [map flat_map]. rewrite IHr by assumption. f_equal.
    destruct m as [k1 o1 l1]; destruct k1; try reflexivity. cbn [pp].
    specialize (H1 (ps ++ [o1])). cbn [ed_kind ed_opts ed_children path_names] in H1. cbn [path_names].
    rewrite map_app in H1. exact H1.
Qed.

Lemma pp_sets : forall n ps dom conf,
  set_commands dom conf (pp ps n)
  = map (fun s => [lit "setConfigurationParameter"; dom; conf; fst s; snd s]) (settings (map eo_name ps) n).
Proof.
  induction n as [k o l IH] using edd_rec'. intros ps dom conf. destruct k; try reflexivity.
  - cbn [pp set_commands settings].
    enough (forall q, flat_map (set_commands dom conf) (map (pp q) l)
            = map (fun s => [lit "setConfigurationParameter"; dom; conf; fst s; snd s]) (flat_map (settings (map eo_name q)) l)) as E.
    { rewrite E, map_app. reflexivity. }
    intros q. induction l as [|m r IHr]; [reflexivity|]. inversion IH; subst. cbn [map flat_map].
    rewrite IHr by assumption. rewrite H1, map_app. reflexivity.
  - cbn [pp set_commands settings rename eo_name eo_value map fst snd]. rewrite map_app. reflexivity.
Qed.

Lemma perm_cross : forall (A : Type) (a b c d : list A), Permutation ((a ++ b) ++ (c ++ d)) ((a ++ c) ++ (b ++ d)).
Proof.
  intros A a b c d. rewrite <- !app_assoc. apply Permutation_app_head. rewrite !app_assoc. apply Permutation_app_tail.
  apply Permutation_app_comm.
Qed.

Lemma elements_settings : forall n ps, Permutation (elements ps n) (map fst (flat_map (settings ps) (ed_children n))).
Proof.
  induction n as [k o l IH] using edd_rec'. intros ps. cbn [ed_children elements].
  induction l as [|m r IHr]; [apply perm_nil|]. inversion IH; subst. cbn [flat_map].
  eapply perm_trans; [apply perm_cross|]. rewrite map_app. apply Permutation_app; [|apply IHr; assumption].
  destruct m as [k1 o1 l1]; destruct k1; try apply perm_nil; cbn [settings app map fst]; try apply Permutation_refl.
  apply (H1 (ps ++ [eo_name o1])).
Qed.

Lemma elements_sets : forall n, Permutation (elements [] n) (map fst (sets n)).
Proof. intros n. apply elements_settings. Qed.

(** ** Contexts *)

Definition ctx_of (w : place) (b : list edd) : ectx :=
  ECtx (map ed_opts (along is_domain w)) (known w ++ filter is_group b) (map ed_opts (along is_conf w)) (rules_for w)
       (map ed_opts (along is_set w)).

Lemma along_cons : forall f b n w, along f ((b, n) :: w) = along f w ++ (if f n then [n] else []).
Proof. intros f b n w. unfold along. cbn [map rev snd]. rewrite filter_app. reflexivity. Qed.

Lemma rules_for_rules : forall w, filter is_rule (rules_for w) = rules_for w.
Proof.
  induction w as [|[b n] o IH]; [reflexivity|]. cbn [rules_for]. rewrite filter_app, IH. f_equal. unfold rules_there.
  rewrite filter_app. f_equal.
  - destruct (is_conf n); [|reflexivity]. generalize (filter (fun g => str_eqb (ed_name g) (ed_name n)) (known o ++ filter is_group b)).
    intros l. induction l as [|g l IHl]; [reflexivity|]. cbn [flat_map]. rewrite filter_app, IHl. f_equal. unfold own_rules.
    clear. induction (ed_children g) as [|x l IH]; [reflexivity|]. cbn [filter]. destruct (is_rule x) eqn:E; auto. cbn [filter]. rewrite E, IH. reflexivity.
  - unfold own_rules. clear. induction (ed_children n) as [|x l IH]; [reflexivity|]. cbn [filter]. destruct (is_rule x) eqn:E; auto. cbn [filter]. rewrite E, IH. reflexivity.
Qed.

Lemma composed_flat : forall w b name, composed (ctx_of w b) name
  = flat_map own_rules (filter (fun g => str_eqb (ed_name g) name) (known w ++ filter is_group b)).
Proof. intros w b name. unfold composed, own_rules. apply flat_map_ext. intros g. apply rules_of_filter. Qed.

Lemma ctx_skip : forall w b n, is_group n = false -> ctx_of w (b ++ [n]) = ctx_of w b.
Proof. intros w b n H. unfold ctx_of. rewrite filter_app. cbn [filter]. rewrite H, app_nil_r. reflexivity. Qed.

(** ** Configurations *)

Lemma rule_prop : forall c n, is_rule n = true -> propagate c n = Ok (c, n).
Proof. intros c [k o l] H. destruct k; try discriminate H; reflexivity. Qed.

Lemma gap_S : forall d, gap d ++ lit "    " = gap (S d).
Proof.
  intros d. unfold gap. replace (4 * S d) with (4 * d + 4) by lia. rewrite repeat_app. reflexivity.
Qed.

Lemma syntax_line : forall n parent, shaped parent n -> operators_ok n -> is_rule n = true -> forall d,
  rule_syntax (gap d) n = Ok (rule_line d n).
Proof.
  induction n as [k o l IH] using edd_rec'. intros parent Hs Ho Hr d. destruct k; try discriminate Hr; [|reflexivity].
  cbn [rule_syntax rule_line].
  inversion Ho as [k1 o1 l1 Hn Hl]; subst. inversion Hs as [k2 o2 l2 Hp Hc]; subst.
  assert ((fix go (l : list edd) : outcome (list str) :=
                     match l with
                     | [] => Ok []
                     | m :: r =>
                         if existsb (kind_eqb (ed_kind m)) [KRule; KOperator]
                         then do a <- rule_syntax (gap d ++ lit "    ") m; do b <- go r; Ok (a :: b)
                         else go r
                     end) l = Ok (map (rule_line (S d)) l)) as G.
  { clear Hn Ho Hs Hp. induction l as [|m r IHr]; [reflexivity|].
    pose proof (Forall_inv IH) as Im. pose proof (Forall_inv Hl) as Om. pose proof (Forall_inv Hc) as Sm.
    apply Forall_inv_tail in IH. apply Forall_inv_tail in Hl. apply Forall_inv_tail in Hc.
    assert (is_rule m = true) as Hm.
    { inversion Sm as [k3 o3 l3 Hp3 Hl3]; subst. destruct k3; try discriminate Hp3; reflexivity. }
    assert (existsb (kind_eqb (ed_kind m)) [KRule; KOperator] = true) as ->.
    { destruct m as [k3 o3 l3]; destruct k3; try discriminate Hm; reflexivity. }
    rewrite gap_S. rewrite (Im KOperator) by assumption. cbn [obind]. rewrite gap_S in IHr. rewrite IHr by assumption. reflexivity. }
  destruct (Hn eq_refl) as [E|E]; rewrite E.
  - change (str_eqb (lit "ANY") (lit "ANY")) with true. cbn [obind].
    setoid_rewrite G. cbn [obind]. reflexivity.
  - change (str_eqb (lit "ALL") (lit "ANY")) with false. change (str_eqb (lit "ALL") (lit "ALL")) with true. cbn [obind].
    setoid_rewrite G. cbn [obind]. reflexivity.
Qed.

Definition sane (n : edd) : Prop := operators_ok n /\ exists p, shaped p n.
Definition place_ok (w : place) : Prop := Forall (fun f => Forall sane (fst f) /\ sane (snd f)) w.

Lemma sane_rules : forall n, sane n -> Forall sane (own_rules n).
Proof.
  intros [k o l] [Ho [p Hs]]. inversion Ho as [k1 o1 l1 _ Hl]; subst. inversion Hs as [k2 o2 l2 _ Hc]; subst.
  unfold own_rules. cbn [ed_children]. clear -Hl Hc. induction l as [|m r IH]; [constructor|].
  inversion Hl; subst. inversion Hc; subst. cbn [filter]. destruct (is_rule m); auto. constructor; auto. split; eauto.
Qed.

Lemma Forall_filter : forall (A : Type) (P : A -> Prop) f l, Forall P l -> Forall P (filter f l).
Proof. intros A P f l H. apply Forall_forall. intros x Hx. apply filter_In in Hx. rewrite Forall_forall in H. apply H. tauto. Qed.

Lemma known_sane : forall w, place_ok w -> Forall sane (known w).
Proof.
  induction w as [|[b n] o IH]; intros H; [constructor|]. inversion H as [|f r [Hb Hn] Hr]; subst. cbn [known].
  apply Forall_app. split; [auto|]. apply Forall_filter. apply Forall_app. split; [exact Hb|]. constructor; [exact Hn|constructor].
Qed.

Lemma there_sane : forall b n o, place_ok ((b, n) :: o) -> Forall sane (rules_there b n o).
Proof.
  intros b n o H. inversion H as [|f r [Hb Hn] Hr]; subst. unfold rules_there. apply Forall_app. split; [|apply sane_rules; exact Hn].
  destruct (is_conf n); [|constructor]. apply Forall_flat_map. apply Forall_filter. apply Forall_forall. intros g Hg.
  apply sane_rules. apply in_app_or in Hg. destruct Hg as [Hg|Hg].
  - pose proof (known_sane _ Hr) as K. rewrite Forall_forall in K. auto.
  - apply filter_In in Hg. cbn [fst] in Hb. rewrite Forall_forall in Hb. apply Hb. tauto.
Qed.

Lemma for_sane : forall w, place_ok w -> Forall sane (rules_for w).
Proof.
  induction w as [|[b n] o IH]; intros H; [constructor|]. cbn [rules_for]. apply Forall_app. split; [|apply there_sane; exact H].
  apply IH. inversion H; auto.
Qed.

Lemma syntax_list : forall l d, Forall sane l -> filter is_rule l = l ->
  (fix go (l : list edd) : outcome (list str) :=
     match l with
     | [] => Ok []
     | m :: r =>
         if existsb (kind_eqb (ed_kind m)) [KRule; KOperator]
         then do a <- rule_syntax (gap d) m; do b <- go r; Ok (a :: b)
         else go r
     end) l = Ok (map (rule_line d) l).
Proof.
  induction l as [|m r IH]; intros d H Hf; [reflexivity|]. inversion H as [|x y [Ho [p Hs]] Hr]; subst.
  assert (is_rule m = true) as Hm.
  { cbn [filter] in Hf. destruct (is_rule m) eqn:E; auto. exfalso.
    assert (In m (filter is_rule r)) as I by (rewrite Hf; left; reflexivity). apply filter_In in I. destruct I as [_ I]. congruence. }
  assert (existsb (kind_eqb (ed_kind m)) [KRule; KOperator] = true) as ->.
  { destruct m as [k3 o3 l3]; destruct k3; try discriminate Hm; reflexivity. }
  rewrite (syntax_line m p Hs Ho Hm). cbn [obind].
  rewrite IH; auto. cbn [filter] in Hf. rewrite Hm in Hf. congruence.
Qed.

Lemma rule_string_spec : forall w l, place_ok w -> filter is_rule l = rules_for w -> rule_string l = Ok (rule_for w).
Proof.
  intros w l Hw E. unfold rule_string, rule_for. rewrite rules_of_filter', E. pose proof (for_sane w Hw) as S1.
  pose proof (rules_for_rules w) as S2.
  assert (forall rs, Forall sane rs -> filter is_rule rs = rs ->
    rule_syntax [] (Edd KOperator (EOpts (lit "ALL") [] [] false) rs)
    = Ok (lit "All{ " ++ joined (lit " , ") (map (rule_line 1) rs) ++ lit " }")) as G.
  { intros rs H1 H2. cbn [rule_syntax eo_name]. change (str_eqb (lit "ALL") (lit "ANY")) with false.
    change (str_eqb (lit "ALL") (lit "ALL")) with true. cbn [obind].
    pose proof (syntax_list rs 1 H1 H2) as Q. change (gap 1) with ([] ++ lit "    ") in Q. setoid_rewrite Q. cbn [obind app].
    reflexivity. }
  destruct (rules_for w) as [|r1 [|r2 rs]] eqn:Er.
  - apply G; auto.
  - destruct r1 as [k o c]. destruct k; try (apply G; auto).
    inversion S1 as [|x y [Ho [p Hs]] _]; subst. exact (syntax_line (Edd KOperator o c) p Hs Ho eq_refl 0).
  - destruct r1 as [k o c]. destruct k; apply G; auto.
Qed.

Lemma got_rules : forall w b n, is_conf n = true -> rules_there b n w = composed (ctx_of w b) (ed_name n) ++ own_rules n.
Proof. intros w b n H. unfold rules_there. rewrite H, composed_flat. reflexivity. Qed.

Lemma composed_rules : forall w b name, filter is_rule (composed (ctx_of w b) name) = composed (ctx_of w b) name.
Proof.
  intros w b name. rewrite composed_flat. generalize (filter (fun g => str_eqb (ed_name g) name) (known w ++ filter is_group b)).
  intros l. induction l as [|g l IHl]; [reflexivity|]. cbn [flat_map]. rewrite filter_app, IHl. f_equal. unfold own_rules.
  clear. induction (ed_children g) as [|x l IH]; [reflexivity|]. cbn [filter]. destruct (is_rule x) eqn:E; auto. cbn [filter]. rewrite E, IH. reflexivity.
Qed.

Lemma enter_conf : forall w b n, is_conf n = true ->
  with_rules (ECtx (map ed_opts (along is_domain w)) (known w ++ filter is_group (b ++ [n])) (map ed_opts (along is_conf w) ++ [ed_opts n])
                   (rules_for w) (map ed_opts (along is_set w)))
             (composed (ctx_of w b) (ed_name n) ++ ed_children n)
  = ctx_of ((b, n) :: w) [].
Proof.
  intros w b n H. pose proof (got_rules w b n H) as Gr. pose proof (composed_rules w b (ed_name n)) as Gc.
  remember (composed (ctx_of w b) (ed_name n)) as got eqn:Eg. unfold with_rules, ctx_of. cbn [cx_domains cx_confs cx_conf_opts cx_rules cx_paths].
  rewrite !along_cons. rewrite H.
  assert (is_domain n = false) as -> by (destruct n as [k o l]; destruct k; try discriminate H; reflexivity).
  assert (is_set n = false) as -> by (destruct n as [k o l]; destruct k; try discriminate H; reflexivity).
  rewrite !app_nil_r, map_app. cbn [known rules_for filter]. rewrite rules_of_filter, (filter_app is_rule), Gc, Gr. reflexivity.
Qed.

Lemma enter_domain : forall w b n, is_domain n = true ->
  with_rules (domain_context (ctx_of w b) (ed_opts n)) (ed_children n) = ctx_of ((b, n) :: w) [].
Proof.
  intros w b n H. unfold with_rules, domain_context, ctx_of. cbn [cx_domains cx_confs cx_conf_opts cx_rules cx_paths].
  rewrite !along_cons. rewrite H.
  assert (is_conf n = false) as E by (destruct n as [k o l]; destruct k; try discriminate H; reflexivity). rewrite E.
  assert (is_set n = false) as -> by (destruct n as [k o l]; destruct k; try discriminate H; reflexivity).
  assert (is_group n = false) as G by (destruct n as [k o l]; destruct k; try discriminate H; reflexivity).
  rewrite !app_nil_r, map_app. cbn [known rules_for filter map]. rewrite rules_of_filter. unfold rules_there. rewrite E.
  rewrite filter_app. cbn [filter]. rewrite G, !app_nil_r. reflexivity.
Qed.

(** ** The same parameters everywhere *)

Definition str_dec : forall a b : str, {a = b} + {a <> b} := list_eq_dec ascii_dec.

Lemma filter_count : forall x l, List.length (filter (str_eqb x) l) = count_occ str_dec l x.
Proof.
  intros x l. induction l as [|y l IH]; [reflexivity|]. cbn [filter count_occ]. destruct (str_dec y x) as [->|N].
  - assert (str_eqb x x = true) as -> by (apply str_eqb_eq; reflexivity). cbn [List.length]. rewrite IH. reflexivity.
  - destruct (str_eqb x y) eqn:E; [apply str_eqb_eq in E; congruence|exact IH].
Qed.

Lemma same_names_perm : forall a b, same_names a b = true <-> Permutation a b.
Proof.
  intros a b. unfold same_names. split.
  - intros H. apply andb_true_iff in H. destruct H as [_ H]. rewrite forallb_forall in H.
    apply (Permutation_count_occ str_dec). intros x. destruct (in_dec str_dec x (a ++ b)) as [I|I].
    + specialize (H x I). apply Nat.eqb_eq in H. rewrite <- !filter_count. exact H.
    + assert (~ In x a) as Ia by (intros K; apply I; apply in_or_app; auto).
      assert (~ In x b) as Ib by (intros K; apply I; apply in_or_app; auto).
      apply (count_occ_not_In str_dec) in Ia. apply (count_occ_not_In str_dec) in Ib. congruence.
  - intros H. apply andb_true_iff. split; [apply Nat.eqb_eq; apply Permutation_length; exact H|].
    apply forallb_forall. intros x _. apply Nat.eqb_eq. rewrite !filter_count. apply (Permutation_count_occ str_dec). exact H.
Qed.

Definition level (l : list edd) : Prop :=
  forall c1 c2, In c1 l -> In c2 l -> Permutation (map fst (sets c1)) (map fst (sets c2)).

Lemma uniform_level : forall n cs, element_lists n = map (elements []) cs -> (uniform n = true <-> level cs).
Proof.
  intros n cs E. unfold uniform. rewrite E. destruct cs as [|c0 cs]; cbn [map].
  - split; [intros _ c1 c2 []|reflexivity].
  - rewrite forallb_forall. split.
    + intros H.
      assert (forall c, In c (c0 :: cs) -> Permutation (map fst (sets c)) (map fst (sets c0))) as G.
      { intros c [<-|I]; [apply Permutation_refl|]. specialize (H (elements [] c) (in_map _ _ _ I)). apply same_names_perm in H.
        eapply perm_trans; [apply Permutation_sym, elements_sets|]. eapply perm_trans; [exact H|]. apply elements_sets. }
      intros c1 c2 I1 I2. eapply perm_trans; [apply G; exact I1|]. apply Permutation_sym. apply G. exact I2.
    + intros H x I. apply in_map_iff in I. destruct I as [c [<- I]]. apply same_names_perm.
      eapply perm_trans; [apply elements_sets|]. eapply perm_trans; [|apply Permutation_sym, elements_sets].
      apply H; [right; exact I|left; reflexivity].
Qed.

Lemma even_inv : forall k o l, even (Edd k o l) <->
  ((k = KDomain \/ k = KGroupDomain -> level (listed (Edd k o l))) /\ Forall even l).
Proof. intros k o l. split; [intros H; inversion H; subst; auto|intros [H1 H2]; constructor; auto]. Qed.

(** ** The whole *)

(** What comes out of an element. *)
Record facts (w : place) (b : list edd) (n n' : edd) : Prop := Facts {
  fc_kind : ed_kind n' = ed_kind n;
  fc_rule : is_rule n = true -> n' = n;
  fc_set : is_set n = true -> n' = pp (map ed_opts (along is_set w)) n;
  fc_names : ed_kind n = KConf -> path_names n' = elements [] n;
  fc_lists : ed_kind n = KGroupConf -> element_lists n' = map (elements []) (listed n);
  fc_confs : forall dom aware, conf_commands dom aware n' = Ok (flat_map (conf_script dom aware) (conf_places w n b));
  fc_doms : dom_commands n' = Ok (flat_map domain_script (domain_places w n b)) }.

Inductive all_facts (w : place) : list edd -> list edd -> list edd -> Prop :=
| af_nil : forall b, all_facts w b [] []
| af_cons : forall b n l n' l', facts w b n n' -> all_facts w (b ++ [n]) l l' -> all_facts w b (n :: l) (n' :: l').

Definition level_of (w : place) (b : list edd) (n : edd) : Prop :=
  (even n /\ exists n', propagate (ctx_of w b) n = Ok (ctx_of w (b ++ [n]), n') /\ facts w b n n')
  \/ (~ even n /\ propagate (ctx_of w b) n = Err).

Lemma go_levels : forall w l b,
  (forall b1 n a1, l = b1 ++ n :: a1 -> level_of w (b ++ b1) n) ->
  (Forall even l /\ exists l', go (ctx_of w b) l = Ok l' /\ all_facts w b l l')
  \/ (~ Forall even l /\ go (ctx_of w b) l = Err).
Proof.
  intros w l. induction l as [|m r IH]; intros b H.
  - left. split; [constructor|]. exists []. split; [reflexivity|constructor].
  - pose proof (H [] m r eq_refl) as Hm. rewrite app_nil_r in Hm. destruct Hm as [[E [n' [P F]]]|[E P]].
    + destruct (IH (b ++ [m])) as [[E2 [l' [P2 F2]]]|[E2 P2]].
      * intros b1 n a1 Er. specialize (H (m :: b1) n a1). rewrite <- app_assoc. apply H. rewrite Er. reflexivity.
      * left. split; [constructor; auto|]. exists (n' :: l'). split; [|constructor; auto].
        rewrite go_cons, P. cbn [obind fst snd]. rewrite P2. reflexivity.
      * right. split; [intros K; inversion K; auto|]. rewrite go_cons, P. cbn [obind fst snd]. rewrite P2. reflexivity.
    + right. split; [intros K; inversion K; auto|]. rewrite go_cons, P. reflexivity.
Qed.

Definition conf_go (dom : str) (aware : bool) (l : list edd) : outcome (list command) :=
  (fix go (l : list edd) : outcome (list command) :=
         match l with
         | [] => Ok []
         | m :: r =>
             do a <- conf_commands dom aware m;
             do b <- go r; Ok (a ++ b)
         end) l.

Lemma conf_go_app_rules : forall dom aware rs l, filter is_rule rs = rs -> conf_go dom aware (rs ++ l) = conf_go dom aware l.
Proof.
  intros dom aware rs l. induction rs as [|m rs IH]; intros H; [reflexivity|]. cbn [app].
  assert (is_rule m = true) as Hm.
  { cbn [filter] in H. destruct (is_rule m) eqn:E; auto. exfalso.
    assert (In m (filter is_rule rs)) as I by (rewrite H; left; reflexivity). apply filter_In in I. destruct I as [_ I]. congruence. }
  assert (conf_commands dom aware m = Ok []) as E by (destruct m as [k o c]; destruct k; try discriminate Hm; reflexivity).
  change (conf_go dom aware (m :: rs ++ l)) with (do a <- conf_commands dom aware m; do b <- conf_go dom aware (rs ++ l); Ok (a ++ b)).
  rewrite E. cbn [obind app]. cbn [filter] in H. rewrite Hm in H. rewrite IH by congruence. destruct (conf_go dom aware l); reflexivity.
Qed.

Lemma conf_go_facts : forall w b l l', all_facts w b l l' -> forall dom aware,
  conf_go dom aware l' = Ok (flat_map (conf_script dom aware) (places_in conf_places w b l)).
Proof.
  intros w b l l' H. induction H as [|b n l n' l' F H IH]; intros dom aware; [reflexivity|].
  change (conf_go dom aware (n' :: l')) with (do a <- conf_commands dom aware n'; do b <- conf_go dom aware l'; Ok (a ++ b)).
  rewrite (fc_confs _ _ _ _ F), IH. cbn [obind places_in]. rewrite flat_map_app. reflexivity.
Qed.

Definition dom_go (l : list edd) : outcome (list command) :=
  (fix go (l : list edd) : outcome (list command) :=
         match l with
         | [] => Ok []
         | m :: r =>
             do a <- dom_commands m;
             do b <- go r; Ok (a ++ b)
         end) l.

Lemma dom_go_app_rules : forall rs l, filter is_rule rs = rs -> dom_go (rs ++ l) = dom_go l.
Proof.
  intros rs l. induction rs as [|m rs IH]; intros H; [reflexivity|]. cbn [app].
  assert (is_rule m = true) as Hm.
  { cbn [filter] in H. destruct (is_rule m) eqn:E; auto. exfalso.
    assert (In m (filter is_rule rs)) as I by (rewrite H; left; reflexivity). apply filter_In in I. destruct I as [_ I]. congruence. }
  assert (dom_commands m = Ok []) as E by (destruct m as [k o c]; destruct k; try discriminate Hm; reflexivity).
  change (dom_go (m :: rs ++ l)) with (do a <- dom_commands m; do b <- dom_go (rs ++ l); Ok (a ++ b)).
  rewrite E. cbn [obind app]. cbn [filter] in H. rewrite Hm in H. rewrite IH by congruence. destruct (dom_go l); reflexivity.
Qed.

Lemma dom_go_facts : forall w b l l', all_facts w b l l' ->
  dom_go l' = Ok (flat_map domain_script (places_in domain_places w b l)).
Proof.
  intros w b l l' H. induction H as [|b n l n' l' F H IH]; [reflexivity|].
  change (dom_go (n' :: l')) with (do a <- dom_commands n'; do b <- dom_go l'; Ok (a ++ b)).
  rewrite (fc_doms _ _ _ _ F), IH. cbn [obind places_in]. rewrite flat_map_app. reflexivity.
Qed.

Lemma flat_skip_rules : forall (A : Type) (f : edd -> list A) rs, (forall n, is_rule n = true -> f n = []) ->
  filter is_rule rs = rs -> flat_map f rs = [].
Proof.
  intros A f rs H E. assert (Forall (fun n => is_rule n = true) rs) as G.
  { rewrite <- E. apply Forall_forall. intros x I. apply filter_In in I. tauto. }
  clear E. induction G; [reflexivity|]. cbn [flat_map]. rewrite H, IHG by auto. reflexivity.
Qed.

Lemma lists_facts : forall w b l l', all_facts w b l l' -> forall k o rs, filter is_rule rs = rs ->
  element_lists (Edd k o (rs ++ l')) = map (elements []) (listed (Edd k o l)).
Proof.
  intros w b l l' H k o rs Hr. cbn [element_lists listed]. rewrite map_app. f_equal.
  - rewrite flat_map_app, (flat_skip_rules _ _ rs); [|intros [kk oo ll] E; destruct kk; try discriminate E; reflexivity|exact Hr].
    cbn [app]. induction H as [|b n l n' l' F H IH]; [reflexivity|]. cbn [flat_map]. rewrite map_app, IH. f_equal.
    pose proof (fc_kind _ _ _ _ F) as K. destruct n as [k1 o1 l1], n' as [k2 o2 l2]. cbn [ed_kind] in K. subst k2.
    destruct k1; try reflexivity. cbn [map]. rewrite (fc_names _ _ _ _ F eq_refl). reflexivity.
  - rewrite flat_map_app, (flat_skip_rules _ _ rs); [|intros [kk oo ll] E; destruct kk; try discriminate E; reflexivity|exact Hr].
    cbn [app]. induction H as [|b n l n' l' F H IH]; [reflexivity|]. cbn [flat_map]. rewrite map_app, IH. f_equal.
    pose proof (fc_kind _ _ _ _ F) as K. destruct n as [k1 o1 l1], n' as [k2 o2 l2]. cbn [ed_kind] in K. subst k2.
    destruct k1; try reflexivity. exact (fc_lists _ _ _ _ F eq_refl).
Qed.

Lemma rules_facts : forall w b l l', all_facts w b l l' -> filter is_rule l' = filter is_rule l.
Proof.
  intros w b l l' H. induction H as [|b n l n' l' F H IH]; [reflexivity|]. cbn [filter].
  pose proof (fc_kind _ _ _ _ F) as K. destruct (is_rule n) eqn:E.
  - rewrite (fc_rule _ _ _ _ F E), E, IH. reflexivity.
  - assert (is_rule n' = false) as ->; [|exact IH]. unfold is_rule in *. rewrite K. exact E.
Qed.

Lemma even_low : forall n p, shaped p n -> is_domain n = false -> even n.
Proof.
  induction n as [k o l IH] using edd_rec'. intros p H Hd. inversion H as [k1 o1 l1 Hp Hl]; subst. apply even_inv. split.
  - intros [->| ->]; discriminate Hd.
  - apply Forall_forall. intros m I. rewrite Forall_forall in IH, Hl. apply (IH m I k (Hl m I)).
    specialize (Hl m I). inversion Hl as [k2 o2 l2 Hp2 _]; subst.
    destruct k; try discriminate Hd; destruct k2; try discriminate Hp2; try reflexivity; destruct p; discriminate Hp.
Qed.

Lemma sane_children : forall n, sane n -> Forall sane (ed_children n).
Proof.
  intros [k o l] [Ho [p Hs]]. inversion Ho as [k1 o1 l1 _ Hl]; subst. inversion Hs as [k2 o2 l2 _ Hc]; subst. cbn [ed_children].
  apply Forall_forall. intros m I. rewrite Forall_forall in Hl, Hc. split; eauto.
Qed.

Lemma facts_pp : forall w b l l', all_facts w b l l' -> along is_set w = [] ->
  Forall (fun m => is_set m = true \/ is_rule m = true) l -> l' = map (pp []) l.
Proof.
  intros w b l l' H Hw. induction H as [|b n l n' l' F H IH]; intros K; [reflexivity|]. cbn [map].
  rewrite <- IH by (inversion K; auto). f_equal. inversion K as [|x y [E|E] _]; subst.
  - rewrite (fc_set _ _ _ _ F E), Hw. reflexivity.
  - rewrite (fc_rule _ _ _ _ F E). destruct n as [k o c]; destruct k; try discriminate E; reflexivity.
Qed.

Lemma names_children : forall k o k' o' l, path_names (Edd k o l) = path_names (Edd k' o' l).
Proof. reflexivity. Qed.

Lemma names_skip : forall k o rs l, filter is_rule rs = rs -> path_names (Edd k o (rs ++ l)) = path_names (Edd k o l).
Proof.
  intros k o rs l H. cbn [path_names]. rewrite !flat_map_app.
  rewrite !(flat_skip_rules _ _ rs); auto; intros [kk oo ll] E; destruct kk; try discriminate E; reflexivity.
Qed.

Lemma map_opts_names : forall l, map eo_name (map ed_opts l) = map ed_name l.
Proof. intros l. rewrite map_map. reflexivity. Qed.

Lemma sets_commands_list : forall dom conf l, flat_map (set_commands dom conf) (map (pp []) l)
  = map (fun s => [lit "setConfigurationParameter"; dom; conf; fst s; snd s]) (flat_map (settings []) l).
Proof.
  intros dom conf l. induction l as [|m r IH]; [reflexivity|]. cbn [map flat_map]. rewrite IH, pp_sets, map_app. reflexivity.
Qed.

Lemma conf_places_group : forall w o l b,
  conf_places w (Edd KGroupConf o l) b = places_in conf_places ((b, Edd KGroupConf o l) :: w) [] l.
Proof. reflexivity. Qed.

Lemma domain_places_group : forall w o l b,
  domain_places w (Edd KGroupDomain o l) b = places_in domain_places ((b, Edd KGroupDomain o l) :: w) [] l.
Proof. reflexivity. Qed.

Lemma level_all : forall n parent w b, shaped parent n -> operators_ok n -> place_ok w -> Forall sane b -> along is_set w = [] ->
  level_of w b n.
Proof.
  induction n as [k o l IH] using edd_rec'. intros parent w b Hs Ho Hw Hb Ha.
  assert (sane (Edd k o l)) as Sn by (split; eauto).
  pose proof (sane_children _ Sn) as Sl. cbn [ed_children] in Sl.
  assert (place_ok ((b, Edd k o l) :: w)) as Hw' by (constructor; auto).
  inversion Hs as [k1 o1 l1 Hp Hl]; subst. inversion Ho as [k2 o2 l2 Hn Hol]; subst.
  assert (is_set (Edd k o l) = false -> forall b1 n a1, l = b1 ++ n :: a1 -> level_of ((b, Edd k o l) :: w) ([] ++ b1) n) as Hc.
  { intros Hns b1 n a1 El. cbn [app]. rewrite Forall_forall in IH, Hl, Hol.
    assert (In n l) as I by (rewrite El; apply in_or_app; right; left; reflexivity).
    apply (IH n I k); auto.
    - rewrite El in Sl. apply Forall_app in Sl. tauto.
    - rewrite along_cons, Hns, app_nil_r. exact Ha. }
  assert (is_set (Edd k o l) = true \/ is_rule (Edd k o l) = true -> level_of w b (Edd k o l)) as Hlow.
  { intros Hk. left. split.
    - apply even_low with parent; auto. destruct Hk as [Hk|Hk]; destruct k; try discriminate Hk; reflexivity.
    - exists (pp (map ed_opts (along is_set w)) (Edd k o l)). rewrite (prop_path _ parent Hs Hk). rewrite ctx_skip; [|destruct Hk as [Hk|Hk]; destruct k; try discriminate Hk; reflexivity].
      cbn [ctx_of cx_paths]. split; [reflexivity|].
      destruct Hk as [Hk|Hk]; destruct k; try discriminate Hk;
        (constructor; [reflexivity|intros K; try discriminate K; reflexivity|intros K; try discriminate K; reflexivity
                      |intros K; discriminate K|intros K; discriminate K|reflexivity|reflexivity]). }
  assert (k = KConf \/ k = KGroupConf -> exists y,
     propagate (ctx_of w b) (Edd k o l)
     = Ok (ctx_of w (b ++ [Edd k o l]),
           Edd k (conf_inherit (ctx_of w b) o) (rules_for w ++ composed (ctx_of w b) (eo_name o) ++ y))
     /\ all_facts ((b, Edd k o l) :: w) [] l y) as Hconf.
  { intros Hk. assert (is_conf (Edd k o l) = true) as Ek by (destruct Hk; subst k; reflexivity).
    assert (is_set (Edd k o l) = false) as Es by (destruct Hk; subst k; reflexivity).
    destruct (go_levels ((b, Edd k o l) :: w) l [] (Hc Es)) as [[_ [y [P F]]]|[E _]].
    - exists y. split; [|exact F]. rewrite <- (enter_conf w b _ Ek) in P. cbn [ed_opts ed_children] in P. unfold ed_name in P. cbn [ed_opts] in P.
      destruct Hk; subst k; cbn [propagate kind_eqb].
      + cbn [ctx_of cx_domains cx_confs cx_conf_opts cx_rules cx_paths]. fold (ctx_of w b).
        rewrite filter_app in P. cbn [filter is_group ed_kind] in P. rewrite app_nil_r in P.
        fold (go (with_rules (ECtx (map ed_opts (along is_domain w)) (known w ++ filter is_group b) (map ed_opts (along is_conf w) ++ [o]) (rules_for w) (map ed_opts (along is_set w))) (composed (ctx_of w b) (eo_name o) ++ l)) l).
        rewrite P. cbn [obind]. rewrite ctx_skip by reflexivity. reflexivity.
      + cbn [ctx_of cx_domains cx_confs cx_conf_opts cx_rules cx_paths]. fold (ctx_of w b).
        rewrite filter_app in P. cbn [filter is_group ed_kind] in P. rewrite <- app_assoc.
        fold (go (with_rules (ECtx (map ed_opts (along is_domain w)) (known w ++ filter is_group b ++ [Edd KGroupConf o l]) (map ed_opts (along is_conf w) ++ [o]) (rules_for w) (map ed_opts (along is_set w))) (composed (ctx_of w b) (eo_name o) ++ l)) l).
        rewrite P. cbn [obind].
        assert (ctx_of w (b ++ [Edd KGroupConf o l])
          = ECtx (map ed_opts (along is_domain w)) (known w ++ filter is_group b ++ [Edd KGroupConf o l]) (map ed_opts (along is_conf w))
                 (rules_for w) (map ed_opts (along is_set w))) as -> by (unfold ctx_of; rewrite filter_app; reflexivity).
        reflexivity.
    - exfalso. apply E. pose proof (even_low _ _ Hs) as V. apply even_inv in V; [tauto|]. destruct Hk; subst k; reflexivity. }
  assert (k = KDomain \/ k = KGroupDomain -> 
     (Forall even l /\ exists y, propagate (ctx_of w b) (Edd k o l)
       = (let n' := Edd k (domain_inherit (ctx_of w b) o) (rules_for w ++ y) in if uniform n' then Ok (ctx_of w (b ++ [Edd k o l]), n') else Err)
       /\ all_facts ((b, Edd k o l) :: w) [] l y)
     \/ (~ Forall even l /\ propagate (ctx_of w b) (Edd k o l) = Err)) as Hdom.
  { intros Hk. assert (is_domain (Edd k o l) = true) as Ek by (destruct Hk; subst k; reflexivity).
    assert (is_set (Edd k o l) = false) as Es by (destruct Hk; subst k; reflexivity).
    assert (propagate (ctx_of w b) (Edd k o l)
      = do y <- go (ctx_of ((b, Edd k o l) :: w) []) l;
        let n' := Edd k (domain_inherit (ctx_of w b) o) (rules_for w ++ y) in
        if uniform n' then Ok (ctx_of w (b ++ [Edd k o l]), n') else Err) as Q.
    { rewrite <- (enter_domain w b _ Ek). rewrite ctx_skip by (destruct Hk; subst k; reflexivity).
      destruct Hk; subst k; reflexivity. }
    destruct (go_levels ((b, Edd k o l) :: w) l [] (Hc Es)) as [[E [y [P F]]]|[E P]]; rewrite P in Q; cbn [obind] in Q; eauto. }
  destruct k; try (apply Hlow; (left + right); reflexivity).
  - destruct parent; discriminate Hp.
  - (* a group of domains *)
    destruct (Hdom (or_intror eq_refl)) as [[E [y [P F]]]|[E P]].
    + pose proof (lists_facts _ _ _ _ F KGroupDomain (domain_inherit (ctx_of w b) o) (rules_for w) (rules_for_rules w)) as L.
      change (listed (Edd KGroupDomain (domain_inherit (ctx_of w b) o) l)) with (listed (Edd KGroupDomain o l)) in L.
      pose proof (uniform_level _ _ L) as U. cbv zeta in P. destruct (uniform _) eqn:Eu.
      * left. split; [apply even_inv; split; [intros _; apply U; reflexivity|exact E]|].
        exists (Edd KGroupDomain (domain_inherit (ctx_of w b) o) (rules_for w ++ y)). split; [exact P|].
        constructor; try reflexivity; try (intros K; discriminate K).
        cbn [dom_commands]. fold (dom_go (rules_for w ++ y)). rewrite dom_go_app_rules by apply rules_for_rules.
        rewrite (dom_go_facts _ _ _ _ F), domain_places_group. reflexivity.
      * right. split; [|exact P]. intros V. apply even_inv in V. destruct V as [V _]. destruct U as [_ U].
        specialize (U (V (or_intror eq_refl))). discriminate U.
    + right. split; [|exact P]. intros V. apply even_inv in V. tauto.
  - (* a domain *)
    destruct (Hdom (or_introl eq_refl)) as [[E [y [P F]]]|[E P]].
    + pose proof (lists_facts _ _ _ _ F KDomain (domain_inherit (ctx_of w b) o) (rules_for w) (rules_for_rules w)) as L.
      change (listed (Edd KDomain (domain_inherit (ctx_of w b) o) l)) with (listed (Edd KDomain o l)) in L.
      pose proof (uniform_level _ _ L) as U. cbv zeta in P. destruct (uniform _) eqn:Eu.
      * left. split; [apply even_inv; split; [intros _; apply U; reflexivity|exact E]|].
        exists (Edd KDomain (domain_inherit (ctx_of w b) o) (rules_for w ++ y)). split; [exact P|].
        constructor; try reflexivity; try (intros K; discriminate K).
        cbn [dom_commands]. rewrite L.
        change (conf_commands (eo_name (domain_inherit (ctx_of w b) o)) (eo_aware (domain_inherit (ctx_of w b) o))
                  (Edd KGroupConf (domain_inherit (ctx_of w b) o) (rules_for w ++ y)))
          with (conf_go (eo_name (domain_inherit (ctx_of w b) o)) (eo_aware (domain_inherit (ctx_of w b) o)) (rules_for w ++ y)).
        rewrite conf_go_app_rules by apply rules_for_rules. rewrite (conf_go_facts _ _ _ _ F). cbn [obind].
        assert (eo_name (domain_inherit (ctx_of w b) o) = full_domain ((b, Edd KDomain o l) :: w)) as ->.
        { unfold full_domain. rewrite along_cons. cbn [is_domain ed_kind domain_inherit eo_name ctx_of cx_domains].
          rewrite !map_app, map_opts_names. reflexivity. }
        assert (eo_aware (domain_inherit (ctx_of w b) o) = is_aware ((b, Edd KDomain o l) :: w)) as ->.
        { unfold is_aware. rewrite along_cons. cbn [is_domain ed_kind domain_inherit eo_aware ctx_of cx_domains].
          rewrite !existsb_app. f_equal. clear. induction (along is_domain w) as [|x r IH]; [reflexivity|]. cbn [map existsb]. rewrite IH. reflexivity. }
        cbn [domain_places flat_map]. rewrite app_nil_r. unfold domain_script, added. cbn [target confs_of ed_children].
        destruct (listed (Edd KDomain o l)); reflexivity.
      * right. split; [|exact P]. intros V. apply even_inv in V. destruct V as [V _]. destruct U as [_ U].
        specialize (U (V (or_introl eq_refl))). discriminate U.
    + right. split; [|exact P]. intros V. apply even_inv in V. tauto.
  - (* a group of configurations *)
    destruct (Hconf (or_intror eq_refl)) as [y [P F]]. left. split; [apply even_low with parent; auto|].
    eexists. split; [exact P|]. constructor; try reflexivity; try (intros K; discriminate K).
    + intros _. rewrite app_assoc. rewrite (lists_facts _ _ _ _ F).
      * reflexivity.
      * rewrite filter_app, rules_for_rules, composed_rules. reflexivity.
    + intros dom aware. cbn [conf_commands]. fold (conf_go dom aware (rules_for w ++ composed (ctx_of w b) (eo_name o) ++ y)).
      rewrite !conf_go_app_rules by (apply rules_for_rules || apply composed_rules).
      rewrite (conf_go_facts _ _ _ _ F), conf_places_group. reflexivity.
  - (* a configuration *)
    destruct (Hconf (or_introl eq_refl)) as [y [P F]]. left. split; [apply even_low with parent; auto|].
    assert (along is_set ((b, Edd KConf o l) :: w) = []) as Ha' by (rewrite along_cons, Ha; reflexivity).
    assert (y = map (pp []) l) as Ey.
    { apply (facts_pp _ _ _ _ F Ha'). apply Forall_forall. intros m I. rewrite Forall_forall in Hl. specialize (Hl m I).
      inversion Hl as [k3 o3 l3 Hp3 _]; subst. destruct k3; try discriminate Hp3; auto. }
    assert (forall kk oo, path_names (Edd kk oo (rules_for w ++ composed (ctx_of w b) (eo_name o) ++ y)) = elements [] (Edd KConf o l)) as N.
    { intros kk oo. rewrite !names_skip by (apply rules_for_rules || apply composed_rules). rewrite Ey. exact (pp_names (Edd KConf o l) []). }
    eexists. split; [exact P|]. constructor; try reflexivity; try (intros K; discriminate K).
    + intros _. apply N.
    + intros dom aware. cbn [conf_commands]. rewrite (rule_string_spec ((b, Edd KConf o l) :: w)).
      * cbn [obind conf_places flat_map]. rewrite app_nil_r. rewrite (names_children KConf _ KConf o), N.
        rewrite !flat_map_app.
        assert (forall c m, is_rule m = true -> set_commands dom c m = []) as Hno
          by (intros c [kk oo ll] E; destruct kk; try discriminate E; reflexivity).
        rewrite (flat_skip_rules _ (set_commands dom _) (rules_for w) (Hno _) (rules_for_rules w)).
        rewrite (flat_skip_rules _ (set_commands dom _) (composed (ctx_of w b) (eo_name o)) (Hno _) (composed_rules w b (eo_name o))).
        cbn [app]. rewrite Ey, sets_commands_list.
        assert (eo_name (conf_inherit (ctx_of w b) o) = full_conf ((b, Edd KConf o l) :: w)) as ->.
        { unfold full_conf. rewrite along_cons. cbn [is_conf ed_kind conf_inherit rename eo_name ctx_of cx_conf_opts].
          rewrite !map_app, map_opts_names. reflexivity. }
        reflexivity.
      * exact Hw'.
      * rewrite !filter_app, rules_for_rules, composed_rules, (rules_facts _ _ _ _ F). cbn [rules_for].
        rewrite (got_rules w b (Edd KConf o l) eq_refl). reflexivity.
Qed.

(** ** Files *)

Lemma all_commands_go : forall l, all_commands l = dom_go l.
Proof. reflexivity. Qed.

Lemma commands_spec : forall doc, Forall (shaped KRoot) doc -> Forall operators_ok doc ->
  (Forall even doc /\ edd_commands doc = Ok (script doc)) \/ (~ Forall even doc /\ edd_commands doc = Err).
Proof.
  intros doc Hs Ho. unfold edd_commands. rewrite propagate_all_go. change no_ctx with (ctx_of [] []).
  destruct (go_levels [] doc []) as [[E [y [P F]]]|[E P]].
  - intros b1 n a1 El. cbn [app]. rewrite Forall_forall in Hs, Ho.
    assert (In n doc) as I by (rewrite El; apply in_or_app; right; left; reflexivity).
    apply level_all with KRoot; auto; [constructor|].
    apply Forall_forall. intros m Im. assert (In m doc) as Id by (rewrite El; apply in_or_app; auto). split; eauto.
  - left. split; [exact E|]. rewrite P. cbn [obind]. rewrite all_commands_go, (dom_go_facts _ _ _ _ F). reflexivity.
  - right. split; [exact E|]. rewrite P. reflexivity.
Qed.
