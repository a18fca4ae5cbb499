(** Whatever the document, the import of domains leaves consistent domains. *)
From Coq Require Import List Arith ZArith Bool Ascii String Lia Permutation Sorted.
From Verif Require Import Base BaseProofs TextModel CriterionModel CriterionSpec CriterionProofs RuleModel RuleSpec RuleProofs ParamTypeModel BlackboardModel BlackboardProofs BitModel ArrayModel
  TreeModel TreeSpec TreeProofs MemSpec MemProofs SyncModel DomainModel DomainSpec DomainProofs DomainInv DomainsInv MgrModel MgrSpec MgrProofs MgrFlow ValueSpec
  XmlModel XmlSpec XmlProofs XmlMgr DomXmlModel DomXmlSpec.
Import ListNotations.
Local Open Scope nat_scope.

(** ** Rules *)

Lemma matches_when_allowed : forall t s w, set_matches_when t s = Some w -> cty_incl t = true \/ w = VIs \/ w = VIsNot.
Proof.
  intros t s w H. unfold set_matches_when in H. destruct (find _ all_verbs) as [w'|]; [|discriminate].
  destruct (cty_incl t); auto. right. destruct w'; simpl in H; inversion H; auto.
Qed.

Lemma crit_from_xml_legal : forall cs x r, crits_ok cs -> crit_from_xml cs x = Ok r -> legal cs r.
Proof.
  intros cs x r C H. unfold crit_from_xml in H. destruct (crits_find cs _) as [i|]; [|discriminate].
  destruct (nth_error cs i) as [k|] eqn:Ek; [|discriminate].
  destruct (set_matches_when (cr_type k) _) as [w|] eqn:Ew; [|discriminate].
  destruct (cty_numerical (cr_type k) _) as [v|] eqn:Ev; [|discriminate]. inversion H; subst.
  apply cty_numerical_spec in Ev; [|apply (C i k Ek)]. eapply legal_crit; eauto using matches_when_allowed.
Qed.

Definition rules_from (cs : list criterion) : list xnode -> outcome (list rule) :=
  fix go (l : list xnode) : outcome (list rule) :=
    match l with
    | [] => Ok []
    | k :: r => if is_elem k then do k' <- rule_from_xml cs k; do r' <- go r; Ok (k' :: r') else go r
    end.
Lemma rule_from_eq : forall cs t a c, rule_from_xml cs (XElem t a c)
  = if str_eqb t (lit "CompoundRule") then omap (RComp (str_eqb (x_attr0 (lit "Type") (XElem t a c)) (lit "All"))) (rules_from cs c)
    else if str_eqb t (lit "SelectionCriterionRule") then crit_from_xml cs (XElem t a c) else misplaced t.
Proof. reflexivity. Qed.

Lemma misplaced_not_ok : forall A t (a : A), misplaced t <> Ok a.
Proof. intros A t a. unfold misplaced. destruct (existsb _ _); discriminate. Qed.

Lemma rule_from_legal : forall cs, crits_ok cs -> forall x r, rule_from_xml cs x = Ok r -> legal cs r.
Proof.
  intros cs C. fix IH 1. intros [s|t a c] r H; [discriminate|]. rewrite rule_from_eq in H.
  destruct (str_eqb t (lit "CompoundRule")).
  - destruct (rules_from cs c) as [l| | |] eqn:E; try discriminate. cbn [omap obind] in H. inversion H; subst. clear H. apply legal_comp.
    revert l E. induction c as [|k c IHc]; intros l E; cbn [rules_from] in E.
    + inversion E; subst. intros r I. destruct I.
    + destruct (is_elem k); [|exact (IHc l E)]. specialize (IH k). destruct (rule_from_xml cs k) as [k'| | |]; try discriminate. cbn [obind] in E.
      destruct (rules_from cs c) as [l'| | |] eqn:E'; try discriminate. cbn [obind] in E. inversion E; subst.
      intros r I. destruct I as [I|I]; [subst; apply IH; reflexivity|apply (IHc l' eq_refl r I)].
  - destruct (str_eqb t (lit "SelectionCriterionRule")).
    + eapply crit_from_xml_legal; eauto.
    + exfalso. exact (misplaced_not_ok _ _ _ H).
Qed.

Lemma legal_in_scope : forall cs r, legal cs r -> in_scope cs r.
Proof.
  intros cs. fix IH 2. intros r H. destruct H as [i k w v s Hk Hw Hv|all l Hl].
  - apply scope_crit. apply nth_error_Some. rewrite Hk. discriminate.
  - apply scope_comp. intros r I. exact (IH r (Hl r I)).
Qed.

(** ** Configurations *)

Definition rule_fine (cs : list criterion) (c : config) : Prop :=
  forall r, cf_rule c = Some r -> legal cs r /\ exists all l, r = RComp all l.

Lemma rule_from_comp : forall cs x r, x_type x = lit "CompoundRule" -> rule_from_xml cs x = Ok r -> exists all l, r = RComp all l.
Proof.
  intros cs [s|t a c] r T H; [discriminate|]. cbn [x_type] in T. rewrite rule_from_eq in H. rewrite T, str_eqb_refl in H.
  destruct (rules_from cs c) as [l| | |]; try discriminate. cbn [omap obind] in H. inversion H. eauto.
Qed.

Lemma config_from_inv : forall cs id x c, crits_ok cs -> config_from_xml cs id x = Ok c ->
  cf_id c = id /\ cf_name c = x_name x /\ cf_areas c = [] /\ rule_fine cs c.
Proof.
  intros cs id x c C H. unfold config_from_xml in H. destruct (str_eqb (x_type x) _); [|exfalso; exact (misplaced_not_ok _ _ _ H)].
  destruct (x_elems x) as [|r more]; [inversion H; subst; repeat split; discriminate|].
  destruct (str_eqb (x_type r) (lit "CompoundRule")) eqn:T; [|exfalso; exact (misplaced_not_ok _ _ _ H)].
  apply str_eqb_eq in T. destruct (rule_from_xml cs r) as [r'| | |] eqn:E; try discriminate. cbn [obind] in H.
  destruct more; [|discriminate]. inversion H; subst. cbn [cf_id cf_name cf_areas]. repeat split.
  - inversion H0; subst. eapply rule_from_legal; eauto.
  - inversion H0; subst. eapply rule_from_comp; eauto.
Qed.

Lemma configs_from_inv : forall cs xs id l, crits_ok cs -> configs_from_xml cs id xs = Ok l ->
  map cf_id l = seq id (List.length l) /\ map cf_name l = map x_name xs /\ Forall (fun c => cf_areas c = [] /\ rule_fine cs c) l.
Proof.
  intros cs xs. induction xs as [|x xs IH]; intros id l C H; cbn [configs_from_xml] in H; [inversion H; subst; repeat split; constructor|].
  destruct (config_from_xml cs id x) as [c| | |] eqn:E; try discriminate. cbn [obind] in H.
  destruct (configs_from_xml cs (S id) xs) as [l'| | |] eqn:E'; try discriminate. cbn [obind] in H. inversion H; subst.
  destruct (config_from_inv _ _ _ _ C E) as [A1 [A2 [A3 A4]]]. destruct (IH (S id) l' C E') as [B1 [B2 B3]].
  cbn [map List.length seq]. rewrite A1, A2, B1, B2. repeat split; auto.
Qed.

(** Nothing terminates the program. *)
Lemma rule_from_no_abort : forall cs x, rule_from_xml cs x <> Abort.
Proof.
  intros cs. fix IH 1. intros [s|t a c]; [discriminate|]. rewrite rule_from_eq. destruct (str_eqb t (lit "CompoundRule")).
  - assert (rules_from cs c <> Abort) as N.
    { induction c as [|k c IHc]; cbn [rules_from]; [discriminate|]. destruct (is_elem k); [|exact IHc]. specialize (IH k).
      destruct (rule_from_xml cs k); cbn [obind]; try discriminate; [|contradiction]. destruct (rules_from cs c); cbn [obind]; try discriminate. contradiction. }
    destruct (rules_from cs c); cbn [omap obind]; try discriminate. contradiction.
  - destruct (str_eqb t (lit "SelectionCriterionRule")).
    + unfold crit_from_xml. destruct (crits_find _ _); [|discriminate]. destruct (nth_error _ _); [|discriminate].
      destruct (set_matches_when _ _); [|discriminate]. destruct (cty_numerical _ _); discriminate.
    + unfold misplaced. destruct (existsb _ _); discriminate.
Qed.

Lemma configs_no_abort : forall cs xs id, configs_from_xml cs id xs <> Abort.
Proof.
  intros cs xs. induction xs as [|x xs IH]; intros id; cbn [configs_from_xml]; [discriminate|].
  assert (config_from_xml cs id x <> Abort) as N.
  { unfold config_from_xml. destruct (str_eqb (x_type x) _); [|unfold misplaced; destruct (existsb _ _); discriminate].
    destruct (x_elems x) as [|r more]; [discriminate|]. destruct (str_eqb (x_type r) _); [|unfold misplaced; destruct (existsb _ _); discriminate].
    pose proof (rule_from_no_abort cs r). destruct (rule_from_xml cs r); cbn [obind]; try discriminate; [|contradiction]. destruct more; discriminate. }
  destruct (config_from_xml cs id x); cbn [obind]; try discriminate; [|contradiction]. specialize (IH (S id)).
  destruct (configs_from_xml cs (S id) xs); cbn [obind]; try discriminate. contradiction.
Qed.

(** ** Elements *)

(** The same configuration, but for the settings. *)
Definition same_head (c c' : config) : Prop := cf_id c' = cf_id c /\ cf_name c' = cf_name c /\ cf_rule c' = cf_rule c.
Definition same_heads (d d' : domain) : Prop :=
  dm_id d' = dm_id d /\ dm_name d' = dm_name d /\ dm_aware d' = dm_aware d /\ dm_last d' = dm_last d
  /\ Forall2 same_head (dm_configs d) (dm_configs d').

Lemma same_head_trans : forall a b c, same_head a b -> same_head b c -> same_head a c.
Proof. unfold same_head. intuition congruence. Qed.
Lemma same_heads_list_refl : forall l, Forall2 same_head l l.
Proof. induction l; constructor; auto. repeat split. Qed.
Lemma same_heads_list_trans : forall l1 l2 l3, Forall2 same_head l1 l2 -> Forall2 same_head l2 l3 -> Forall2 same_head l1 l3.
Proof.
  intros l1 l2 l3 A B. pose proof (Forall2_comp _ _ _ _ _ _ _ _ A B) as F. eapply Forall2_impl2; [|exact F].
  intros a c _ [b [X Y]]. eapply same_head_trans; eauto.
Qed.
Lemma same_heads_refl : forall d, same_heads d d.
Proof. intros. repeat split; auto. apply same_heads_list_refl. Qed.
Lemma same_heads_trans : forall a b c, same_heads a b -> same_heads b c -> same_heads a c.
Proof.
  intros a b c [A1 [A2 [A3 [A4 A5]]]] [B1 [B2 [B3 [B4 B5]]]].
  split; [congruence|]. split; [congruence|]. split; [congruence|]. split; [congruence|]. eapply same_heads_list_trans; eauto.
Qed.

(** What the attachments must satisfy for the domain [d] under construction. *)
Definition linked (d : domain) (at0 at_ : attachments) : Prop :=
  att_link d at_ /\ NoDup at_ /\ forall p id, id <> dm_id d -> (In (p, id) at_ <-> In (p, id) at0).

Lemma locate_elem : forall root s p, elem_wf root = true -> locate root s = Some p -> elem_at root p <> None.
Proof. intros root s p W H. destruct (locate_param root s p W H) as [e [E _]]. congruence. Qed.

Lemma elements_ok : forall y, structure_ok y -> one_syncer y -> forall xs d at0 at_, domain_ok y d -> linked d at0 at_ ->
  exists b d' at', elements_from_xml y xs d at_ = Ok (b, (d', at')) /\ domain_ok y d' /\ linked d' at0 at' /\ same_heads d d'.
Proof.
  intros y S O xs. induction xs as [|x xs IH]; intros d at0 at_ K L; cbn [elements_from_xml].
  - exists true, d, at_. split; [auto|]. split; [auto|]. split; [auto|apply same_heads_refl].
  - destruct (locate (sy_root y) (x_attr0 (lit "Path") x)) as [p|] eqn:El.
    2: { exists false, d, at_. split; [auto|]. split; [auto|]. split; [auto|apply same_heads_refl]. }
    destruct L as [L1 [L2 L3]].
    destruct (dm_add_ok y p None d at_ S O (locate_elem _ _ _ (proj1 S) El) ltac:(discriminate) K L1 L2) as [b [d' [at' [E [_ [F T]]]]]].
    rewrite E. cbn [obind fst snd]. destruct b.
    + destruct (T eq_refl) as [K' [I' [L1' [L3' [L2' [_ [F' [N' [A' La']]]]]]]]].
      assert (same_heads d d') as H1.
      { repeat split; auto. eapply Forall2_impl2; [|exact F']. intros c c' _ [? [? [? _]]]. repeat split; auto. }
      destruct (IH d' at0 at' K') as [b2 [d2 [at2 [E2 [K2 [L2'' H2]]]]]].
      { split; [auto|]. split; [auto|]. intros q id Hq. rewrite I' in Hq. rewrite L3' by auto. apply L3; auto. }
      rewrite E2. exists b2, d2, at2. split; [auto|]. split; [auto|]. split; [auto|]. eapply same_heads_trans; eauto.
    + destruct (F eq_refl) as [-> ->]. exists false, d, at_. split; [auto|]. split; [auto|]. split; [split; auto|apply same_heads_refl].
Qed.

(** ** Settings *)

Lemma area_room : forall root a, elem_wf root = true -> area_ok root a -> room root (ar_pos a) (offset root (ar_pos a)) (ar_bb a).
Proof.
  intros root a W A r c P. assert (above (ar_pos a) (ar_pos a ++ r)) as Ab by (exists r; reflexivity).
  destruct A as [x [X1 X2]]. destruct (storage_above root (ar_pos a) (ar_pos a ++ r) x c W Ab X1 (proj1 P)) as [S1 S2]. rewrite X2. lia.
Qed.

Lemma area_from_ok : forall y x a, structure_ok y -> area_ok (sy_root y) a ->
  exists b a', area_from_xml y x a = Ok (b, a') /\ ar_pos a' = ar_pos a /\ area_ok (sy_root y) a' /\ ar_valid a' = ar_valid a || b.
Proof.
  intros y x a S A. pose proof A as [e [E Ln]]. unfold area_from_xml. rewrite E.
  assert (exists b a', Ok (false, a) = Ok (b, a') /\ ar_pos a' = ar_pos a /\ area_ok (sy_root y) a' /\ ar_valid a' = ar_valid a || b) as Same
    by (exists false, a; rewrite orb_false_r; auto).
  destruct (x_elems x) as [|xc [|? ?]]; auto. destruct (type_matches _ _ && _); auto.
  destruct (import_spec (sy_root y) (proj1 S) (proj2 S) (ar_pos a) e E xc (offset (sy_root y) (ar_pos a)) (le_n _) false false (ar_bb a)
              (area_room _ _ (proj1 S) A)) as [ok [raw' [bb' [H [L _]]]]].
  rewrite H. cbn [obind]. exists ok, (Area (ar_pos a) bb' (ar_valid a || ok)). repeat split; auto. exists e. cbn [ar_pos ar_bb]. split; [auto|congruence].
Qed.

Lemma splice_pos : forall y s placed rest a a', ar_pos a' = ar_pos a ->
  map ar_pos (fst (splice y s placed rest a')) = map ar_pos (fst (splice y s placed rest a))
  /\ snd (splice y s placed rest a') = snd (splice y s placed rest a).
Proof. intros. unfold splice. destruct (find_area_path y s placed); cbn [fst snd]; rewrite !map_app; cbn [map]; rewrite H; auto. Qed.

Lemma drop_In : forall y s l a, In a (drop_area_path y s l) -> In a l.
Proof.
  intros y s l a. induction l as [|b l IH]; cbn [drop_area_path]; intros I; [auto|]. destruct (str_eqb _ s); [right; auto|].
  destruct I; [left|right]; auto.
Qed.

Lemma splice_In : forall y s placed rest a b, In b (fst (splice y s placed rest a) ++ snd (splice y s placed rest a)) ->
  b = a \/ In b (placed ++ rest).
Proof.
  intros y s placed rest a b I. unfold splice in I. destruct (find_area_path y s placed); cbn [fst snd] in I; rewrite !in_app_iff in *; cbn [In] in I.
  - destruct I as [[I|[I|[]]]|I]; auto. apply drop_In in I. auto.
  - destruct I as [[I|[I|[]]]|I]; auto. apply drop_In in I. auto.
Qed.

Lemma areas_from_ok : forall y, structure_ok y -> forall xs placed rest, Forall (area_ok (sy_root y)) (placed ++ rest) ->
  exists b l, areas_from_xml y xs placed rest = Ok (b, l) /\ Permutation (map ar_pos l) (map ar_pos (placed ++ rest))
    /\ Forall (area_ok (sy_root y)) l.
Proof.
  intros y S xs. induction xs as [|x xs IH]; intros placed rest F; cbn [areas_from_xml]; [exists true, (placed ++ rest); auto|].
  destruct (find_area_path y _ (placed ++ rest)) as [a|] eqn:Ef; [|exists false, (placed ++ rest); auto].
  destruct (find_area_path_split _ _ _ _ Ef) as [l1 [l2 [El _]]].
  assert (In a (placed ++ rest)) as Ia by (rewrite El; apply in_elt).
  rewrite Forall_forall in F. destruct (area_from_ok y x a S (F a Ia)) as [b [a' [E [P [A _]]]]]. rewrite E. cbn [obind fst snd].
  destruct b; [|exists false, (placed ++ rest); repeat split; auto; apply Forall_forall; auto].
  destruct (splice y (x_attr0 (lit "Path") x) placed rest a') as [pl re] eqn:Es.
  destruct (splice_pos y (x_attr0 (lit "Path") x) placed rest a a' P) as [P1 P2]. pose proof (splice_perm _ _ _ _ _ Ef) as Pm.
  rewrite Es in P1, P2. cbn [fst snd] in P1, P2.
  destruct (IH pl re) as [b [l [E' [Pl Fl]]]].
  - apply Forall_forall. intros c I. pose proof (splice_In y (x_attr0 (lit "Path") x) placed rest a' c) as Q. rewrite Es in Q. cbn [fst snd] in Q.
    destruct (Q I) as [->|I']; auto.
  - rewrite E'. exists b, l. split; [auto|]. split; [|auto]. rewrite Pl, map_app, P1, P2, <- map_app. apply Permutation_map. exact Pm.
Qed.

Definition from_settings (y : system) (x : xnode) (c : config) : outcome (bool * config) :=
  do w <- areas_from_xml y (x_elems x) [] (cf_areas c); Ok (fst w, with_areas c (snd w)).

Lemma from_settings_ok : forall y x l c, structure_ok y -> config_ok (sy_root y) l c ->
  exists b c', from_settings y x c = Ok (b, c') /\ config_ok (sy_root y) l c' /\ cf_id c' = cf_id c /\ same_head c c'.
Proof.
  intros y x l c S [P F]. unfold from_settings. destruct (areas_from_ok y S (x_elems x) [] (cf_areas c) F) as [b [l' [E [P' F']]]].
  rewrite E. cbn [obind fst snd]. exists b, (with_areas c l'). repeat split; auto. cbn [with_areas cf_areas]. rewrite P'. exact P.
Qed.

Lemma settings_ok : forall y, structure_ok y -> forall xs d, domain_ok y d ->
  exists b d', settings_from_xml y xs d = Ok (b, d') /\ domain_ok y d' /\ same_shape d d' /\ same_heads d d'.
Proof.
  intros y S xs. induction xs as [|x xs IH]; intros d K; cbn [settings_from_xml].
  - exists true, d. split; [auto|]. split; [auto|]. split; [repeat split|apply same_heads_refl].
  - change (fun c => do w <- areas_from_xml y (x_elems x) [] (cf_areas c); Ok (fst w, with_areas c (snd w))) with (from_settings y x).
    destruct (dm_on_config_ok y (x_name x) (from_settings y x) (fun c _ c' => same_head c c') d K) as [b [d' [E [K' [Sh [N [A [La [Fn Ff]]]]]]]]].
    { intros c Kc. destruct (from_settings_ok y x _ c S Kc) as [b [c' H]]. exists b, c'. tauto. }
    rewrite E. cbn [obind fst snd].
    assert (same_heads d d') as Hh.
    { split; [apply Sh|]. split; [auto|]. split; [auto|]. split; [auto|].
      destruct (dm_find (x_name x) d) as [c|] eqn:Ef.
      - destruct (Ff c eq_refl) as [l1 [l2 [c' [E1 [_ [E2 [_ [_ R]]]]]]]]. rewrite E1, E2.
        apply Forall2_app; [apply same_heads_list_refl|]. constructor; [exact R|apply same_heads_list_refl].
      - unfold dm_on_config in E. rewrite Ef in E. inversion E; subst. apply same_heads_list_refl. }
    destruct b.
    + destruct (IH d' K') as [b [d2 [E2 [K2 [S2 H2]]]]]. rewrite E2. exists b, d2. split; [auto|]. split; [auto|]. split.
      * destruct Sh as [? [? ?]], S2 as [? [? ?]]. repeat split; congruence.
      * eapply same_heads_trans; eauto.
    + exists false, d'. auto.
Qed.

(** ** Validation between configurations *)

(** The settings [b] are the first valid ones recorded for the element at [p]. *)
Definition first_valid (p : list nat) (cfs : list config) (b : area) : Prop :=
  exists l1 g l2, cfs = l1 ++ g :: l2 /\ In b (cf_areas g) /\ ar_pos b = p /\ ar_valid b = true
    /\ forall k a, In k l1 -> In a (cf_areas k) -> ar_pos a = p -> ar_valid a = false.
Definition none_valid (p : list nat) (cfs : list config) : Prop :=
  forall k a, In k cfs -> In a (cf_areas k) -> ar_pos a = p -> ar_valid a = false.

Lemma find_valid_spec : forall root l p, NoDup l -> In p l -> forall cfs, (forall c, In c cfs -> config_ok root l c) ->
  (find_valid p cfs = Ok None /\ none_valid p cfs)
  \/ exists l1 g l2 b, cfs = l1 ++ g :: l2 /\ find_valid p cfs = Ok (Some g) /\ In b (cf_areas g) /\ ar_pos b = p /\ ar_valid b = true
       /\ none_valid p l1.
Proof.
  intros root l p N Ip cfs. induction cfs as [|c cfs IH]; intros K; cbn [find_valid].
  - left. split; auto. intros k a I. destruct I.
  - destruct (K c (or_introl eq_refl)) as [P F]. pose proof (Permutation_NoDup (Permutation_sym P) N) as Nc.
    assert (In p (map ar_pos (cf_areas c))) as Ic by (eapply Permutation_in; [apply Permutation_sym; exact P|exact Ip]).
    apply in_map_iff in Ic. destruct Ic as [a [Pa Ia]]. unfold cf_is_valid. rewrite (get_area_In p _ a Nc Ia Pa). cbn [omap obind].
    assert (forall a', In a' (cf_areas c) -> ar_pos a' = p -> a' = a) as Un.
    { intros a' I' P'. apply (NoDup_map_in _ _ ar_pos (cf_areas c)); auto. congruence. }
    destruct (ar_valid a) eqn:V.
    + right. exists [], c, cfs, a. repeat split; auto. intros k b I. destruct I.
    + destruct IH as [[E Nv]|[l1 [g [l2 [b [E1 [E2 [Ib [Pb [Vb Nv]]]]]]]]]].
      * intros c' I'. apply K. right. auto.
      * left. split; auto. intros k b [<-|Ik] Ib Pb; [rewrite (Un b Ib Pb); auto|eapply Nv; eauto].
      * right. exists (c :: l1), g, l2, b. split; [rewrite E1; auto|]. split; [exact E2|]. split; [auto|]. split; [auto|]. split; [auto|].
        intros k b' [<-|Ik] Ib' Pb'; [rewrite (Un b' Ib' Pb'); auto|eapply Nv; eauto].
Qed.

(** What the validation of the element at [p] does to an area of a configuration. *)
Definition validated (p : list nat) (cfs : list config) (a a' : area) : Prop :=
  ar_pos a' = ar_pos a /\ (ar_pos a <> p -> a' = a)
  /\ (ar_pos a = p -> (ar_valid a = true -> a' = a)
        /\ (ar_valid a = false -> (forall b, first_valid p cfs b -> a' = Area p (ar_bb b) true) /\ (none_valid p cfs -> a' = a))).
Definition validated_configs (p : list nat) (cfs cfs' : list config) : Prop :=
  Forall2 (fun c c' => same_head c c' /\ Forall2 (validated p cfs) (cf_areas c) (cf_areas c')) cfs cfs'.

Lemma first_none : forall p cfs b, first_valid p cfs b -> none_valid p cfs -> False.
Proof. intros p cfs b [l1 [g [l2 [E [I [P [V _]]]]]]] N. rewrite (N g b) in V; try discriminate; auto. rewrite E. apply in_elt. Qed.

Lemma first_unique : forall root l p cfs b b', NoDup l -> (forall c, In c cfs -> config_ok root l c) -> first_valid p cfs b -> first_valid p cfs b' -> b = b'.
Proof.
  intros root l p cfs b b' N K [l1 [g [l2 [E [I [P [V F]]]]]]] [m1 [h [m2 [E' [I' [P' [V' F']]]]]]].
  assert (l1 = m1 /\ g = h) as [_ <-].
  { rewrite E in E'. clear E K N cfs. revert m1 E' F'. induction l1 as [|x l1 IH]; intros m1 E' F'.
    - destruct m1 as [|x' m1]; cbn [app] in E'; [inversion E'; auto|]. exfalso. inversion E'; subst.
      rewrite (F' x' b (or_introl eq_refl) I eq_refl) in V. discriminate.
    - destruct m1 as [|x' m1]; cbn [app] in E'.
      + exfalso. inversion E'; subst. rewrite (F h b' (or_introl eq_refl) I' P') in V'. discriminate.
      + inversion E'; subst x'. destruct (IH (fun k a Ik => F k a (or_intror Ik)) m1) as [-> ->]; auto.
        intros k a Ik. apply F'. right. auto. }
  assert (config_ok root l g) as [Pg _] by (apply K; rewrite E; apply in_elt).
  apply (NoDup_map_in _ _ ar_pos (cf_areas g)); auto; [eapply Permutation_NoDup; [apply Permutation_sym; exact Pg|exact N]|congruence].
Qed.

Lemma Forall2_diag : forall A (R : A -> A -> Prop) l, (forall a, In a l -> R a a) -> Forall2 R l l.
Proof. intros A R l. induction l; intros H; constructor; [apply H; left; auto|apply IHl; intros; apply H; right; auto]. Qed.

Lemma Forall2_map_diag : forall A (R : A -> A -> Prop) f l, (forall a, In a l -> R a (f a)) -> Forall2 R l (map f l).
Proof. intros A R f l. induction l; intros H; constructor; [apply H; left; auto|apply IHl; intros; apply H; right; auto]. Qed.

Lemma auto_areas_spec : forall y d p, domain_ok y d -> In p (dm_elems d) ->
  exists d', dm_auto_validate_areas p d = Ok d' /\ domain_ok y d' /\ same_shape d d' /\ same_heads d d'
    /\ validated_configs p (dm_configs d) (dm_configs d').
Proof.
  intros y d p K Ip. pose proof (proj1 (dk_separate _ _ K)) as N. pose proof (dk_configs _ _ K) as Kc. unfold dm_auto_validate_areas.
  destruct (find_valid_spec (sy_root y) (dm_elems d) p N Ip (dm_configs d) Kc) as [[E Nv]|[l1 [g [l2 [b [E1 [E [Ib [Pb [Vb Nv]]]]]]]]]]; rewrite E; cbn [obind].
  - exists d. split; [auto|]. split; [auto|]. split; [repeat split|]. split; [apply same_heads_refl|].
    apply Forall2_diag. intros c Ic. split; [repeat split|]. apply Forall2_diag. intros a Ia. split; [auto|]. split; [auto|]. intros Pa. split; [auto|]. intros Va. split; [|auto].
    intros b Fb. exfalso. eapply first_none; eauto.
  - assert (first_valid p (dm_configs d) b) as Fv by (exists l1, g, l2; repeat split; auto).
    assert (In g (dm_configs d)) as Ig by (rewrite E1; apply in_elt).
    assert (forall c, In c (dm_configs d) -> exists c',
      (do v <- cf_is_valid p c; if negb (cf_id c =? cf_id g) && negb v then cf_validate_area_against g p c else Ok c) = Ok c'
      /\ config_ok (sy_root y) (dm_elems d) c' /\ same_head c c' /\ Forall2 (validated p (dm_configs d)) (cf_areas c) (cf_areas c')) as Each.
    { intros c Ic. pose proof (Kc c Ic) as [Pc Fc]. pose proof (Permutation_NoDup (Permutation_sym Pc) N) as Nc.
      assert (In p (map ar_pos (cf_areas c))) as Ipc by (eapply Permutation_in; [apply Permutation_sym; exact Pc|exact Ip]).
      apply in_map_iff in Ipc. destruct Ipc as [a [Pa Ia]]. unfold cf_is_valid. rewrite (get_area_In p _ a Nc Ia Pa). cbn [omap obind].
      assert (forall a', In a' (cf_areas c) -> ar_pos a' = p -> a' = a) as Un.
      { intros a' I' P'. apply (NoDup_map_in _ _ ar_pos (cf_areas c)); auto. congruence. }
      assert (ar_valid a = true -> Forall2 (validated p (dm_configs d)) (cf_areas c) (cf_areas c)) as Same.
      { intros Va. apply Forall2_diag. intros a' Ia'. split; [auto|]. split; [auto|]. intros Pa'. rewrite (Un a' Ia' Pa'). split; [auto|]. intros. congruence. }
      destruct (ar_valid a) eqn:Va.
      - rewrite andb_false_r. exists c. split; [auto|]. split; [split; auto|]. split; [repeat split|]. auto.
      - assert (cf_id c =? cf_id g = false) as ->.
        { apply Nat.eqb_neq. intros Q. assert (c = g) as -> by (apply (NoDup_map_in _ _ cf_id (dm_configs d)); auto; apply (dk_ids _ _ K)).
          assert (b = a) by (apply Un; auto). congruence. }
        cbn [negb andb]. unfold cf_validate_area_against. pose proof (Kc g Ig) as [Pg Fg].
        rewrite (get_area_In p _ b (Permutation_NoDup (Permutation_sym Pg) N) Ib Pb). cbn [obind].
        rewrite Forall_forall in Fc, Fg. destruct (Fc a Ia) as [e [Ea La]]. destruct (Fg b Ib) as [e' [Eb Lb]].
        assert (e' = e) as -> by congruence. rewrite <- La in Lb.
        assert (area_validate_against b a = Ok (Area p (ar_bb b) true)) as Ev.
        { unfold area_validate_against, bb_restore_from. rewrite (proj2 (bb_access_ok_spec _ _ _)) by (unfold bb_size; lia). cbn [obind].
          unfold overwrite. cbn [firstn Nat.add app]. rewrite skipn_all2 by lia. rewrite app_nil_r, Pa. reflexivity. }
        rewrite (upd_area_map p _ _ a _ Nc Ia Pa Ev). cbn [omap obind].
        exists (with_areas c (map (replace_area p (Area p (ar_bb b) true)) (cf_areas c))). split; [auto|]. cbn [with_areas cf_areas].
        split; [|split; [repeat split|]].
        + split; cbn [with_areas cf_areas]; [rewrite replace_area_pos by auto; exact Pc|]. apply Forall_forall. intros k Ik. apply in_map_iff in Ik.
          destruct Ik as [k0 [<- Ik0]]. unfold replace_area. destruct (pos_eqb (ar_pos k0) p); auto. exists e. cbn [ar_pos ar_bb]. split; congruence.
        + apply Forall2_map_diag. intros k Ik. unfold replace_area. destruct (pos_eqb (ar_pos k) p) eqn:Q.
          * apply pos_eqb_eq in Q. rewrite (Un k Ik Q). split; [auto|]. split; [congruence|]. intros _. split; [congruence|]. intros _. split.
            { intros b' Fb'. rewrite (first_unique _ _ _ _ _ _ N Kc Fv Fb'). reflexivity. }
            { intros Nn. exfalso. eapply first_none; eauto. }
          * apply pos_eqb_neq in Q. split; [auto|]. split; [auto|contradiction]. }
    destruct (omap_list_ok _ _ _ _ _ Each) as [cfs' [El Fl]]. rewrite El. cbn [omap obind]. exists (with_configs d cfs').
    assert (Forall2 same_head (dm_configs d) cfs') as Hh by (eapply Forall2_impl2; [|exact Fl]; intros ? ? _ [_ [? _]]; auto).
    split; [auto|]. split; [|split; [repeat split|split; [repeat split; auto|]]].
    + apply (same_shape_ok y d); auto; [repeat split| | | |].
      * cbn [with_configs dm_configs]. intros c' Ic'. destruct (Forall2_in_r _ _ _ _ _ _ Fl Ic') as [c [_ [H _]]]. exact H.
      * cbn [with_configs dm_configs]. rewrite (Forall2_map_eq _ _ _ cf_id cf_id (dm_configs d) cfs'); [apply (dk_ids _ _ K)|].
        eapply Forall2_impl2; [|exact Hh]. intros ? ? _ [? _]. auto.
      * cbn [with_configs dm_configs dm_fresh]. intros c' Ic'. destruct (Forall2_in_r _ _ _ _ _ _ Hh Ic') as [c [Ic [H _]]]. rewrite H. apply (dk_fresh _ _ K). auto.
      * cbn [with_configs dm_configs dm_last]. intros i Hi. destruct (dk_last _ _ K i Hi) as [c [Ic Hc]].
        destruct (Forall2_in_l _ _ _ _ _ _ Hh Ic) as [c' [Ic' [H _]]]. exists c'. split; congruence.
    + cbn [with_configs dm_configs]. eapply Forall2_impl2; [|exact Fl]. intros c c' _ [_ H]. exact H.
Qed.

(** The validation of an element does not change what is recorded for the others. *)
Lemma validated_other : forall p q cfs cfs', p <> q -> validated_configs p cfs cfs' ->
  (forall b, first_valid q cfs b -> first_valid q cfs' b) /\ (none_valid q cfs -> none_valid q cfs').
Proof.
  intros p q cfs cfs' D V.
  assert (forall l l', validated_configs p l l' \/ Forall2 (fun c c' => same_head c c' /\ Forall2 (validated p cfs) (cf_areas c) (cf_areas c')) l l' -> True) as _ by auto.
  set (R := fun c c' => same_head c c' /\ Forall2 (validated p cfs) (cf_areas c) (cf_areas c')).
  assert (forall c c' a', R c c' -> In a' (cf_areas c') -> ar_pos a' = q -> In a' (cf_areas c)) as Back.
  { intros c c' a' [_ F] I Pa. destruct (Forall2_in_r _ _ _ _ _ _ F I) as [a [Ia [P1 [P2 _]]]]. rewrite P2; auto. congruence. }
  assert (forall c c' a, R c c' -> In a (cf_areas c) -> ar_pos a = q -> In a (cf_areas c')) as Forth.
  { intros c c' a [_ F] I Pa. destruct (Forall2_in_l _ _ _ _ _ _ F I) as [a' [Ia [P1 [P2 _]]]]. rewrite <- P2; auto. congruence. }
  assert (forall l l', Forall2 R l l' -> none_valid q l -> none_valid q l') as Nn.
  { intros l l' F N k a Ik Ia Pa. destruct (Forall2_in_r _ _ _ _ _ _ F Ik) as [k0 [Ik0 Hk]]. apply (N k0 a Ik0); eauto. }
  change (Forall2 R cfs cfs') in V. clearbody R. split; [|apply Nn; exact V].
  intros b [l1 [g [l2 [E [I [P [Va F]]]]]]]. subst cfs. apply Forall2_app_inv_l in V. destruct V as [m1 [m2 [V1 [V2 ->]]]].
  inversion V2 as [|g0 g' ? m2' Vg V2']; subst. exists m1, g', m2'. split; [auto|]. split; [eauto|]. split; [auto|]. split; [auto|].
  intros k a Ik Ia Pa. eapply (Nn l1 m1 V1); eauto.
Qed.

Lemma auto_loop_spec : forall y ps d, domain_ok y d -> NoDup ps -> incl ps (dm_elems d) ->
  exists d', auto_validate_loop ps d = Ok d' /\ domain_ok y d' /\ same_shape d d' /\ same_heads d d'
    /\ Forall2 (fun c c' => Forall2 (fun a a' => ar_pos a' = ar_pos a /\ (~ In (ar_pos a) ps -> a' = a) /\ (In (ar_pos a) ps -> validated (ar_pos a) (dm_configs d) a a'))
                              (cf_areas c) (cf_areas c')) (dm_configs d) (dm_configs d').
Proof.
  intros y ps. induction ps as [|p ps IH]; intros d K N I; cbn [auto_validate_loop].
  - exists d. split; [auto|]. split; [auto|]. split; [repeat split|]. split; [apply same_heads_refl|].
    apply Forall2_diag. intros c _. apply Forall2_diag. intros a _. split; [auto|]. split; [auto|]. intros [].
  - inversion N as [|? ? Np N']; subst.
    destruct (auto_areas_spec y d p K (I p (or_introl eq_refl))) as [d1 [E1 [K1 [S1 [H1 V1]]]]]. rewrite E1. cbn [obind].
    destruct (IH d1 K1 N') as [d2 [E2 [K2 [S2 [H2 V2]]]]].
    { destruct S1 as [_ [-> _]]. intros q Iq. apply I. right. auto. }
    rewrite E2. exists d2. split; [auto|]. split; [auto|]. split; [destruct S1 as [? [? ?]], S2 as [? [? ?]]; repeat split; congruence|].
    split; [eapply same_heads_trans; eauto|].
    pose proof (Forall2_comp _ _ _ _ _ _ _ _ V1 V2) as F. eapply Forall2_impl2; [|exact F].
    intros c c2 _ [c1 [[_ A1] A2]]. pose proof (Forall2_comp _ _ _ _ _ _ _ _ A1 A2) as F'. eapply Forall2_impl2; [|exact F'].
    intros a a2 _ [a1 [[P1 [O1 W1]] [P2 [O2 W2]]]]. split; [congruence|]. split.
    + intros Ni. rewrite O2; [apply O1|]; intros Q; apply Ni; [left; auto|right; congruence].
    + intros In_. destruct (pos_eq_dec (ar_pos a) p) as [Pp|Pp].
      * subst p. rewrite O2; [|rewrite P1; auto]. split; [auto|]. split; [tauto|]. exact W1.
      * assert (a1 = a) as -> by (apply O1; auto). destruct In_ as [Q|Iq]; [congruence|]. destruct (W2 Iq) as [Q1 [Q2 Q3]].
        destruct (validated_other p (ar_pos a) _ _ (fun Q => Pp (eq_sym Q)) V1) as [T1 T2].
        split; [auto|]. split; [tauto|]. intros _. destruct (Q3 eq_refl) as [R1 R2]. split; [auto|]. intros Va. destruct (R2 Va) as [U1 U2]. split; auto.
Qed.

(** What the validation between configurations does to each area. *)
Definition filled (cfs : list config) (a a' : area) : Prop :=
  ar_pos a' = ar_pos a /\ (ar_valid a = true -> a' = a)
  /\ (ar_valid a = false -> (forall b, first_valid (ar_pos a) cfs b -> a' = Area (ar_pos a) (ar_bb b) true) /\ (none_valid (ar_pos a) cfs -> a' = a)).

Lemma auto_validate_ok : forall y d, domain_ok y d ->
  exists d', dm_auto_validate d = Ok d' /\ domain_ok y d' /\ same_shape d d' /\ same_heads d d'
    /\ Forall2 (fun c c' => Forall2 (filled (dm_configs d)) (cf_areas c) (cf_areas c')) (dm_configs d) (dm_configs d').
Proof.
  intros y d K. destruct (auto_loop_spec y (dm_elems d) d K (proj1 (dk_separate _ _ K)) (incl_refl _)) as [d' [E [K' [S [H F]]]]].
  exists d'. split; [exact E|]. split; [auto|]. split; [auto|]. split; [auto|]. eapply Forall2_impl2; [|exact F]. intros c c' Ic Fc.
  eapply Forall2_impl2; [|exact Fc]. intros a a' Ia [P [_ V]]. destruct (V) as [_ [_ W]].
  - destruct (dk_configs _ _ K c Ic) as [Pm _]. eapply Permutation_in; [exact Pm|]. apply in_map. auto.
  - split; [auto|]. apply W. auto.
Qed.

(** ** Domains *)

Lemma domain_from_ok : forall y cs ws aware id x at0, structure_ok y -> one_syncer y -> crits_ok cs -> NoDup at0 -> (forall p, ~ In (p, id) at0) ->
  forall r, domain_from_xml y cs ws aware id x at0 = r -> r = UB
  \/ exists b d at_, r = Ok (b, (d, at_)) /\ domain_ok y d /\ linked d at0 at_ /\ dm_id d = id /\ dm_name d = x_name x /\ dm_aware d = aware
     /\ dm_last d = None /\ forall c, In c (dm_configs d) -> rule_fine cs c.
Proof.
  intros y cs ws aware id x at0 S O C N Fr r H. unfold domain_from_xml in H.
  destruct (child_or_last (lit "Configurations") x) as [xc| | |] eqn:Ec.
  2,3: unfold child_or_last in Ec; destruct (find _ _); try discriminate; destruct (rev _); discriminate. 2: left; subst; reflexivity.
  cbn [obind] in H.
  assert (forall n, domain_ok y (Domain id (x_name x) aware [] [] None [] n)) as Empty.
  { intros n. constructor; cbn [dm_elems dm_configs dm_last dm_syncers dm_fresh map In]; try tauto; try discriminate.
    - split; [constructor|]. intros p q I. destruct I.
    - constructor.
    - intros s. split; [tauto|intros [p [I _]]; destruct I].
    - constructor. }
  destruct (configs_from_xml cs 0 (x_elems xc)) as [cfs| | |] eqn:Ef.
  - destruct (configs_from_inv _ _ _ _ C Ef) as [I1 [_ I2]]. rewrite Forall_forall in I2.
    set (d0 := Domain id (x_name x) aware [] cfs None [] (List.length cfs)) in H.
    assert (domain_ok y d0) as K0.
    { constructor; unfold d0; cbn [dm_elems dm_configs dm_last dm_syncers dm_fresh In]; try tauto; try discriminate.
      - split; [constructor|]. intros p q I. destruct I.
      - intros c Ic. destruct (I2 c Ic) as [A _]. split; rewrite A; constructor.
      - rewrite I1. apply seq_NoDup.
      - intros c Ic. assert (In (cf_id c) (map cf_id cfs)) as Q by (apply in_map; auto). rewrite I1 in Q. apply in_seq in Q. lia.
      - intros s. split; [tauto|intros [p [I _]]; destruct I].
      - constructor. }
    assert (linked d0 at0 at0) as L0.
    { split; [|split; [auto|tauto]]. intros p. unfold d0. cbn [dm_id dm_elems In]. split; [|tauto]. intros Q. exact (Fr p Q). }
    destruct (child_or_last (lit "ConfigurableElements") x) as [xe| | |] eqn:Ee.
    2,3: unfold child_or_last in Ee; destruct (find _ _); try discriminate; destruct (rev _); discriminate. 2: left; subst; reflexivity.
    cbn [obind] in H. destruct (elements_ok y S O (x_elems xe) d0 at0 at0 K0 L0) as [b [d1 [at1 [E1 [K1 [L1 H1]]]]]]. rewrite E1 in H. cbn [obind] in H.
    assert (forall d2, same_heads d0 d2 -> dm_id d2 = id /\ dm_name d2 = x_name x /\ dm_aware d2 = aware /\ dm_last d2 = None
              /\ forall c, In c (dm_configs d2) -> rule_fine cs c) as Hd.
    { intros d2 [A1 [A2 [A3 [A4 A5]]]]. split; [auto|]. split; [auto|]. split; [auto|]. split; [auto|]. intros c2 Ic2.
      destruct (Forall2_in_r _ _ _ _ _ _ A5 Ic2) as [c0 [Ic0 [_ [_ Hr]]]]. intros r' Hr'. rewrite Hr in Hr'. apply (proj2 (I2 c0 Ic0) r' Hr'). }
    assert (forall d2, same_shape d1 d2 -> linked d2 at0 at1) as Ld.
    { intros d2 [A1 [A2 _]]. destruct L1 as [M1 [M2 M3]]. split; [|split; [auto|rewrite A1; auto]]. intros p. rewrite A1, A2. apply M1. }
    right. destruct b.
    + assert (exists b d2, (if ws then match find (fun c => str_eqb (x_type c) (lit "Settings")) (x_elems x) with
                            | Some xs => settings_from_xml y (x_elems xs) d1
                            | None => Ok (true, d1)
                            end
                 else Ok (true, d1)) = Ok (b, d2) /\ domain_ok y d2 /\ same_shape d1 d2 /\ same_heads d1 d2) as [b [d2 [E2 [K2 [S2 H2]]]]].
      { assert (exists b d2, Ok (true, d1) = Ok (b, d2) /\ domain_ok y d2 /\ same_shape d1 d2 /\ same_heads d1 d2) as T
          by (exists true, d1; split; [auto|]; split; [auto|]; split; [repeat split|apply same_heads_refl]).
        destruct ws; [|exact T]. destruct (find _ (x_elems x)) as [xs|]; [|exact T]. apply settings_ok; auto. }
      rewrite E2 in H. cbn [obind fst snd] in H. destruct b.
      * destruct (auto_validate_ok y d2 K2) as [d3 [E3 [K3 [S3 [H3 _]]]]]. rewrite E3 in H. cbn [obind] in H.
        exists true, d3, at1. split; [auto|]. split; [auto|]. split; [apply Ld; destruct S2 as [? [? ?]], S3 as [? [? ?]]; repeat split; congruence|].
        apply Hd. eapply same_heads_trans; [exact H1|]. eapply same_heads_trans; eauto.
      * exists false, d2, at1. split; [auto|]. split; [auto|]. split; [apply Ld; auto|]. apply Hd. eapply same_heads_trans; eauto.
    + exists false, d1, at1. split; [auto|]. split; [auto|]. split; [auto|]. apply Hd. auto.
  - right. eexists false, _, at0. split; [symmetry; exact H|]. split; [apply Empty|]. split; [|cbn [dm_id dm_name dm_aware dm_last dm_configs]; repeat split; intros; destruct H0].
    split; [|split; [auto|tauto]]. intros p. cbn [dm_id dm_elems In]. split; [|tauto]. intros Q. exact (Fr p Q).
  - exfalso. exact (configs_no_abort _ _ _ Ef).
  - left. auto.
Qed.

Definition fine (y : system) (cs : list criterion) (s : domains) : Prop := domains_ok y s /\ rules_legal cs s.

Lemma fresh_unattached : forall y s p, domains_ok y s -> ~ In (p, ds_fresh s) (ds_att s).
Proof. intros y s p K I. apply (ds_attached _ _ K) in I. destruct I as [d [Id [Ed _]]]. pose proof (ds_fresh_ok _ _ K d Id). lia. Qed.

Lemma appended_fine : forall y cs s d at_, fine y cs s -> domain_ok y d -> linked d (ds_att s) at_ -> dm_id d = ds_fresh s ->
  (forall c, In c (dm_configs d) -> rule_fine cs c) -> fine y cs (Domains (ds_list s ++ [d]) at_ (S (ds_fresh s))).
Proof.
  intros y cs s d at_ [K R] Kd [L1 [L2 L3]] Id Rd. split.
  - constructor; cbn [ds_list ds_att ds_fresh].
    + intros k I. apply in_app_iff in I. destruct I as [I|[<-|[]]]; auto. apply (ds_domain _ _ K k I).
    + rewrite map_app. apply NoDup_app; [apply (ds_ids _ _ K)|cbn [map]; constructor; [intros Q; destruct Q|constructor]|].
      intros i I1 I2. cbn [map In] in I2. destruct I2 as [<-|[]]. apply in_map_iff in I1. destruct I1 as [k [Ek Ik]].
      pose proof (ds_fresh_ok _ _ K k Ik). lia.
    + intros k I. apply in_app_iff in I. destruct I as [I|[<-|[]]]; [pose proof (ds_fresh_ok _ _ K k I); lia|lia].
    + intros p id. destruct (Nat.eq_dec id (dm_id d)) as [->|Ne].
      * rewrite (L1 p). split.
        -- intros I. exists d. split; [apply in_app_iff; right; left; auto|auto].
        -- intros [k [Ik [Ek Hp]]]. apply in_app_iff in Ik. destruct Ik as [Ik|[<-|[]]]; auto. pose proof (ds_fresh_ok _ _ K k Ik). lia.
      * rewrite (L3 p id Ne), (ds_attached _ _ K). split.
        -- intros [k [Ik H]]. exists k. split; [apply in_app_iff; auto|auto].
        -- intros [k [Ik [Ek Hp]]]. apply in_app_iff in Ik. destruct Ik as [Ik|[<-|[]]]; [eauto|congruence].
    + exact L2.
  - intros k c r Ik Ic Er. cbn [ds_list] in Ik. apply in_app_iff in Ik. destruct Ik as [Ik|[<-|[]]]; [eapply R; eauto|eapply Rd; eauto].
Qed.

Lemma domains_from_ok : forall y cs ws, structure_ok y -> one_syncer y -> crits_ok cs -> forall xs s r, fine y cs s ->
  domains_from_xml y cs ws xs s = r -> r = UB \/ exists b s', r = Ok (b, s') /\ fine y cs s'.
Proof.
  intros y cs ws S O C xs. induction xs as [|x xs IH]; intros s r K H; cbn [domains_from_xml] in H; [right; eauto|].
  destruct (str_eqb (x_type x) (lit "ConfigurableDomain")).
  - destruct (aware_from_xml x) as [aware|]; [|right; eauto].
    destruct (domain_from_xml y cs ws aware (ds_fresh s) x (ds_att s)) as [z| | |] eqn:Ez;
      destruct (domain_from_ok y cs ws aware (ds_fresh s) x (ds_att s) S O C (ds_att_once _ _ (proj1 K)) (fun p => fresh_unattached y s p (proj1 K)) _ Ez)
        as [Q|[b [d [at_ [Q [Kd [L [Id [_ [_ [_ Rd]]]]]]]]]]]; try discriminate; [|left; auto].
    inversion Q; subst z. cbn [obind] in H. pose proof (appended_fine y cs s d at_ K Kd L Id Rd) as K'. destruct b; [|right; eauto].
    apply (IH _ _ K' H).
  - unfold misplaced in H. destruct (existsb _ _); [left; auto|right; eauto].
Qed.

Lemma no_domains_fine : forall y cs s, domains_ok y s -> fine y cs (ds_delete_all s) /\ ds_list (ds_delete_all s) = [].
Proof. intros y cs s K. split; [|reflexivity]. split; [apply (ds_delete_all_ok y s K)|]. intros d c r I. destruct I. Qed.

Lemma import_all_ok : forall y cs ws x s r, structure_ok y -> one_syncer y -> crits_ok cs -> domains_ok y s -> import_all y cs ws x s = r ->
  r = UB \/ exists b s', r = Ok (b, s') /\ fine y cs s' /\ (b = false -> ds_list s' = []).
Proof.
  intros y cs ws x s r S O C K H. unfold import_all in H. destruct (no_domains_fine y cs s K) as [F0 E0].
  destruct (domains_root y x); [|right; exists false, (ds_delete_all s); auto].
  destruct (domains_from_xml y cs ws (x_elems x) (ds_delete_all s)) as [[b s']| | |] eqn:Ez;
    destruct (domains_from_ok y cs ws S O C _ _ _ F0 Ez) as [Q|[b0 [s0 [Q F]]]]; try discriminate; [|left; auto].
  inversion Q; subst b0 s0. cbn [obind fst snd] in H. right. destruct b.
  - exists true, s'. split; [auto|]. split; [auto|discriminate].
  - destruct (no_domains_fine y cs s' (proj1 F)) as [F1 E1]. exists false, (ds_delete_all s'). auto.
Qed.

Lemma delete_fine : forall y cs n s b s', fine y cs s -> ds_delete n s = (b, s') -> fine y cs s' /\ (forall d, In d (ds_list s') -> In d (ds_list s)) .
Proof.
  intros y cs n s b s' [K R] H. destruct (ds_delete_ok y n s b s' K H) as [K' _].
  assert (forall d, In d (ds_list s') -> In d (ds_list s)) as Sub.
  { intros d I. unfold ds_delete in H. destruct (ds_find n s) as [d0|] eqn:E; inversion H; subst; auto. cbn [ds_list] in I.
    destruct (ds_find_split _ _ _ E) as [l1 [l2 [El [Pn Fn]]]]. rewrite El in *. rewrite drop_domain_split in I by auto.
    rewrite in_app_iff in *. cbn [In]. tauto. }
  split; [|auto]. split; [auto|]. intros d c r I. apply R. auto.
Qed.

Lemma forget_all : forall y s d at_, domains_ok y s -> linked d (ds_att s) at_ -> dm_id d = ds_fresh s ->
  domains_ok y (Domains (ds_list s) (forget d at_) (S (ds_fresh s))) /\ forall p id, In (p, id) (forget d at_) <-> In (p, id) (ds_att s).
Proof.
  intros y s d at_ K [L1 [L2 L3]] Id.
  assert (forall p id, In (p, id) (forget d at_) <-> In (p, id) (ds_att s)) as Q.
  { intros p id. rewrite forget_In. destruct (Nat.eq_dec id (dm_id d)) as [->|Ne].
    - rewrite (L1 p). rewrite Id. split; [tauto|]. intros I. exfalso. exact (fresh_unattached y s p K I).
    - rewrite (L3 p id Ne). tauto. }
  split; [|exact Q]. constructor; cbn [ds_list ds_att ds_fresh]; try apply K.
  - intros k I. pose proof (ds_fresh_ok _ _ K k I). lia.
  - intros p id. rewrite Q. apply (ds_attached _ _ K).
  - apply forget_NoDup. auto.
Qed.

Lemma find_app_some : forall n l l' at1 f1 at2 f2 d, ds_find n (Domains l at1 f1) = Some d -> ds_find n (Domains (l ++ l') at2 f2) = Some d.
Proof.
  intros n l l' at1 f1 at2 f2 d. unfold ds_find. cbn [ds_list]. induction l as [|k l IH]; cbn [find app]; [discriminate|].
  destruct (str_eqb (dm_path_name k) n); auto.
Qed.

Lemma import_one_ok : forall y cs ws overwrite x s r, structure_ok y -> one_syncer y -> crits_ok cs -> fine y cs s -> import_one y cs ws overwrite x s = r ->
  r = UB \/ (r = Abort /\ aware_from_xml x = None /\ x_type x = lit "ConfigurableDomain")
  \/ exists b s', r = Ok (b, s') /\ fine y cs s'
       /\ (b = false -> ds_list s' = ds_list s /\ forall p id, In (p, id) (ds_att s') <-> In (p, id) (ds_att s))
       /\ (b = true -> exists d, dm_name d = x_name x /\ aware_from_xml x = Some (dm_aware d) /\ dm_last d = None /\
             ((ds_find (dm_name d) s = None /\ ds_list s' = ds_list s ++ [d])
              \/ exists l1 d0 l2, overwrite = true /\ ds_find (dm_name d) s = Some d0 /\ ds_list s = l1 ++ d0 :: l2 /\ ds_list s' = l1 ++ l2 ++ [d])).
Proof.
  intros y cs ws overwrite x s r St O C K H. unfold import_one in H.
  destruct (str_eqb (x_type x) (lit "ConfigurableDomain")) eqn:T.
  2: { right. right. exists false, s. split; [auto|]. split; [auto|]. split; [split; [auto|tauto]|discriminate]. }
  apply str_eqb_eq in T.
  destruct (aware_from_xml x) as [aware|] eqn:Ea; [|right; left; auto].
  destruct (domain_from_xml y cs ws aware (ds_fresh s) x (ds_att s)) as [z| | |] eqn:Ez;
    destruct (domain_from_ok y cs ws aware (ds_fresh s) x (ds_att s) St O C (ds_att_once _ _ (proj1 K)) (fun p => fresh_unattached y s p (proj1 K)) _ Ez)
      as [Q|[b [d [at_ [Q [Kd [L [Id [Nd [Ad [Ld Rd]]]]]]]]]]]; try discriminate; [|left; auto].
  inversion Q; subst z. clear Q. cbn [obind] in H. right. right.
  destruct (forget_all y s d at_ (proj1 K) L Id) as [Kf Qf].
  assert (fine y cs (Domains (ds_list s) (forget d at_) (S (ds_fresh s)))) as Ff by (split; [auto|]; intros k c r0 I; apply (proj2 K); auto).
  pose proof (appended_fine y cs s d at_ K Kd L Id Rd) as Fa.
  assert (forall n, ds_find n (Domains (ds_list s) at_ (S (ds_fresh s))) = ds_find n s) as Fn by reflexivity.
  destruct b.
  - rewrite Fn in H. destruct (ds_find (dm_name d) s) as [d0|] eqn:Ef.
    + destruct overwrite.
      * unfold ds_delete in H. rewrite Fn, Ef in H. cbn [snd ds_list ds_att ds_fresh] in H.
        destruct (ds_find_split _ _ _ Ef) as [l1 [l2 [El [Pn Fl]]]]. rewrite El in H. rewrite drop_domain_split in H by auto.
        assert (ds_delete (dm_name d) (Domains (ds_list s ++ [d]) at_ (S (ds_fresh s)))
                = (true, Domains (l1 ++ l2 ++ [d]) (forget d0 at_) (S (ds_fresh s)))) as Ed.
        { unfold ds_delete. rewrite (find_app_some (dm_name d) (ds_list s) [d] (ds_att s) (ds_fresh s) at_ (S (ds_fresh s)) d0); [|destruct s; exact Ef].
          cbn [ds_list ds_att ds_fresh]. rewrite El, <- app_assoc. cbn [app]. rewrite drop_domain_split by auto. reflexivity. }
        destruct (delete_fine _ _ _ _ _ _ Fa Ed) as [Fd _].
        exists true. eexists. split; [rewrite <- H; reflexivity|]. rewrite <- app_assoc. split; [exact Fd|]. split; [discriminate|]. intros _.
        exists d. split; [auto|]. split; [congruence|]. split; [auto|]. right. exists l1, d0, l2. auto.
      * exists false. eexists. split; [rewrite <- H; reflexivity|]. split; [auto|]. split; [split; [auto|exact Qf]|discriminate].
    + exists true. eexists. split; [rewrite <- H; reflexivity|]. split; [exact Fa|]. split; [discriminate|]. intros _.
      exists d. split; [auto|]. split; [congruence|]. split; [auto|]. left. auto.
  - exists false. eexists. split; [rewrite <- H; reflexivity|]. split; [auto|]. split; [split; [auto|exact Qf]|discriminate].
Qed.

(** ** Documents of the schema *)

Lemma rule_shaped_not_UB : forall cs x, rule_shaped x -> rule_from_xml cs x <> UB.
Proof.
  intros cs. fix IH 1. intros [s|t a c] H; [inversion H|]. inversion H as [a' c' E1|a' c' F E1]; subst.
  - rewrite rule_from_eq. change (str_eqb (lit "SelectionCriterionRule") (lit "CompoundRule")) with false.
    change (str_eqb (lit "SelectionCriterionRule") (lit "SelectionCriterionRule")) with true. cbn [negb].
    unfold crit_from_xml. destruct (crits_find _ _); [|discriminate]. destruct (nth_error _ _); [|discriminate].
    destruct (set_matches_when _ _); [|discriminate]. destruct (cty_numerical _ _); discriminate.
  - rewrite rule_from_eq. rewrite str_eqb_refl.
    assert (rules_from cs c <> UB) as N.
    { clear H. revert F. induction c as [|k c IHc]; intros F; cbn [rules_from]; [discriminate|]. cbn [filter] in F. destruct (is_elem k); [|exact (IHc F)].
      inversion F as [|? ? Fk Fr]; subst. specialize (IH k Fk). specialize (IHc Fr).
      destruct (rule_from_xml cs k); cbn [obind]; try discriminate; [|contradiction]. destruct (rules_from cs c); cbn [obind]; try discriminate. contradiction. }
    destruct (rules_from cs c); cbn [omap obind]; try discriminate. contradiction.
Qed.

Lemma configs_shaped_not_UB : forall cs xs id, Forall config_shaped xs -> configs_from_xml cs id xs <> UB.
Proof.
  intros cs xs. induction xs as [|x xs IH]; intros id F; cbn [configs_from_xml]; [discriminate|]. inversion F as [|? ? [T Sh] Fr]; subst.
  assert (config_from_xml cs id x <> UB) as N.
  { unfold config_from_xml. rewrite T, str_eqb_refl. destruct Sh as [E|[r [E [Tr Rs]]]]; rewrite E; [discriminate|]. rewrite Tr, str_eqb_refl.
    pose proof (rule_shaped_not_UB cs r Rs). destruct (rule_from_xml cs r); cbn [obind]; try discriminate. contradiction. }
  destruct (config_from_xml cs id x); cbn [obind]; try discriminate; [|contradiction]. specialize (IH (S id) Fr).
  destruct (configs_from_xml cs (S id) xs); cbn [obind]; try discriminate. contradiction.
Qed.

Lemma shaped_children : forall x, domain_shaped x -> exists xc xe, child_or_last (lit "Configurations") x = Ok xc /\ child_or_last (lit "ConfigurableElements") x = Ok xe
  /\ Forall config_shaped (x_elems xc).
Proof.
  intros x [_ [xc [xe [xs [E [T1 [T2 [_ F]]]]]]]]. exists xc, xe. unfold child_or_last. rewrite E. cbn [find]. rewrite T1, T2.
  change (str_eqb (lit "Configurations") (lit "ConfigurableElements")) with false. rewrite !str_eqb_refl. auto.
Qed.

Lemma domain_shaped_not_UB : forall y cs ws aware id x at0, structure_ok y -> one_syncer y -> crits_ok cs -> NoDup at0 -> (forall p, ~ In (p, id) at0) ->
  domain_shaped x -> domain_from_xml y cs ws aware id x at0 <> UB.
Proof.
  intros y cs ws aware id x at0 S O C N Fr Sh. destruct (shaped_children x Sh) as [xc [xe [E1 [E2 F]]]].
  (* the same steps as for any document, without the missing children *)
  unfold domain_from_xml. rewrite E1. cbn [obind]. pose proof (configs_shaped_not_UB cs (x_elems xc) 0 F) as Nc.
  destruct (configs_from_xml cs 0 (x_elems xc)) as [cfs| | |] eqn:Ef; try discriminate; [|contradiction]. rewrite E2. cbn [obind].
  destruct (configs_from_inv _ _ _ _ C Ef) as [I1 [_ I2]]. rewrite Forall_forall in I2.
  set (d0 := Domain id (x_name x) aware [] cfs None [] (List.length cfs)).
  assert (domain_ok y d0) as K0.
  { constructor; unfold d0; cbn [dm_elems dm_configs dm_last dm_syncers dm_fresh In]; try tauto; try discriminate.
    - split; [constructor|]. intros p q I. destruct I.
    - intros c Ic. destruct (I2 c Ic) as [A _]. split; rewrite A; constructor.
    - rewrite I1. apply seq_NoDup.
    - intros c Ic. assert (In (cf_id c) (map cf_id cfs)) as Q by (apply in_map; auto). rewrite I1 in Q. apply in_seq in Q. lia.
    - intros s. split; [tauto|intros [p [I _]]; destruct I].
    - constructor. }
  assert (linked d0 at0 at0) as L0.
  { split; [|split; [auto|tauto]]. intros p. unfold d0. cbn [dm_id dm_elems In]. split; [|tauto]. intros Q. exact (Fr p Q). }
  destruct (elements_ok y S O (x_elems xe) d0 at0 at0 K0 L0) as [b [d1 [at1 [E3 [K1 _]]]]]. rewrite E3. cbn [obind]. destruct b; [|discriminate].
  assert (exists b d2, (if ws then match find (fun c => str_eqb (x_type c) (lit "Settings")) (x_elems x) with
                            | Some xs => settings_from_xml y (x_elems xs) d1
                            | None => Ok (true, d1)
                            end
                 else Ok (true, d1)) = Ok (b, d2) /\ domain_ok y d2) as [b [d2 [E4 K2]]].
  { destruct ws; [|eauto]. destruct (find _ (x_elems x)) as [xs|]; [|eauto]. destruct (settings_ok y S (x_elems xs) d1 K1) as [b [d2 [Q1 [Q2 _]]]]. eauto. }
  rewrite E4. cbn [obind fst snd]. destruct b; [|discriminate]. destruct (auto_validate_ok y d2 K2) as [d3 [E5 _]]. rewrite E5. discriminate.
Qed.

Lemma domains_shaped_not_UB : forall y cs ws, structure_ok y -> one_syncer y -> crits_ok cs -> forall xs s, fine y cs s -> Forall domain_shaped xs ->
  domains_from_xml y cs ws xs s <> UB.
Proof.
  intros y cs ws St O C xs. induction xs as [|x xs IH]; intros s K F; cbn [domains_from_xml]; [discriminate|]. inversion F as [|? ? Sh Fr]; subst.
  rewrite (proj1 Sh), str_eqb_refl. destruct (aware_from_xml x) as [aware|]; [|discriminate].
  pose proof (domain_shaped_not_UB y cs ws aware (ds_fresh s) x (ds_att s) St O C (ds_att_once _ _ (proj1 K)) (fun p => fresh_unattached y s p (proj1 K)) Sh) as N.
  destruct (domain_from_xml y cs ws aware (ds_fresh s) x (ds_att s)) as [z| | |] eqn:Ez;
    destruct (domain_from_ok y cs ws aware (ds_fresh s) x (ds_att s) St O C (ds_att_once _ _ (proj1 K)) (fun p => fresh_unattached y s p (proj1 K)) _ Ez)
      as [Q|[b [d [at_ [Q [Kd [L [Id [_ [_ [_ Rd]]]]]]]]]]]; try discriminate; [|contradiction].
  inversion Q; subst z. cbn [obind]. destruct b; [|discriminate]. apply IH; [|exact Fr]. apply appended_fine; auto.
Qed.
