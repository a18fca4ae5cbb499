(** Proofs about what a settings document says. *)
From Coq Require Import List Arith ZArith Bool Ascii String Lia Permutation.
From Verif Require Import Base BaseProofs TextModel CriterionModel CriterionSpec CriterionProofs RuleModel RuleSpec RuleProofs ParamTypeModel BlackboardModel BitModel BitProofs ArrayModel ArraySpec ArrayProofs TreeModel
  TreeSpec TreeProofs MemSpec MemProofs LocalProofs SyncModel SyncProofs DomainModel DomainSpec DomainProofs AreaProofs DomainInv DomainsInv MgrModel MgrSpec MgrProofs MgrFlow
  ValueSpec XmlModel XmlSpec XmlFlat XmlProofs XmlMgr DomXmlModel DomXmlSpec DomXmlInv DomXmlRound CatSpec CatProofs DeclProofs PlatProofs DocSpec.
Import ListNotations.
Local Open Scope nat_scope.

(** ** Attributes and rules *)

Lemma aware_from_says : forall x b, aware_from_xml x = Some b <-> aware_says x b.
Proof.
  intros x b. unfold aware_from_xml, aware_says. destruct (x_attr (lit "SequenceAware") x) as [s|].
  2: { split; [intros H; inversion H; auto|intros ->; auto]. }
  unfold convert_bool. split.
  - destruct (str_eqb s (lit "0") || str_eqb s (lit "FALSE") || str_eqb s (lit "false")) eqn:F.
    + intros H. inversion H; subst. rewrite !orb_true_iff, !str_eqb_eq in F. cbn [In]. destruct F as [[->| ->]| ->]; auto.
    + destruct (str_eqb s (lit "1") || str_eqb s (lit "TRUE") || str_eqb s (lit "true")) eqn:T; [|discriminate].
      intros H. inversion H; subst. rewrite !orb_true_iff, !str_eqb_eq in T. cbn [In]. destruct T as [[->| ->]| ->]; auto.
  - intros H. destruct b; cbn [In] in H; destruct H as [<-|[<-|[<-|[]]]]; reflexivity.
Qed.

Lemma matches_when_says : forall t s w, set_matches_when t s = Some w <-> s = verb_text w /\ (cty_incl t = true \/ w = VIs \/ w = VIsNot).
Proof.
  intros t s w. split.
  - intros H. split; [|eapply matches_when_allowed; eauto]. unfold set_matches_when in H. destruct (find _ all_verbs) as [w'|] eqn:E; [|discriminate].
    apply find_some in E. destruct E as [_ E]. apply str_eqb_eq in E. destruct (_ && _); inversion H; subst; auto.
  - intros [-> H]. unfold set_matches_when.
    assert (find (fun w' => str_eqb (verb_text w) (verb_text w')) all_verbs = Some w) as -> by (destruct w; reflexivity).
    destruct H as [->|[->| ->]]; [reflexivity| |]; rewrite andb_false_r; reflexivity.
Qed.

Lemma find_first_iff : forall cs n i, crits_find cs n = Some i <->
  exists k, nth_error cs i = Some k /\ cr_path_name k = n /\ forall j k', j < i -> nth_error cs j = Some k' -> cr_path_name k' <> n.
Proof.
  intros cs n i. split; [apply find_first|]. revert i. induction cs as [|c cs IH]; intros i [k [H1 [H2 H3]]]; [destruct i; discriminate|].
  cbn [crits_find]. destruct i as [|i]; cbn [nth_error] in H1.
  - inversion H1; subst. rewrite str_eqb_refl. auto.
  - destruct (str_eqb (cr_path_name c) n) eqn:E; [apply str_eqb_eq in E; exfalso; apply (H3 0 c); auto; lia|].
    rewrite (IH i); auto. exists k. split; [auto|]. split; [auto|]. intros j k' Hj Hk. apply (H3 (S j)); auto. lia.
Qed.

Lemma crit_from_says : forall cs x r, crits_ok cs -> x_type x = lit "SelectionCriterionRule" -> (crit_from_xml cs x = Ok r <-> rule_says cs x r).
Proof.
  intros cs x r C T. unfold crit_from_xml. split.
  - intros H. destruct (crits_find cs _) as [i|] eqn:Ef; [|discriminate]. apply find_first_iff in Ef. destruct Ef as [k [Ek [Nk Fk]]]. rewrite Ek in H.
    destruct (set_matches_when (cr_type k) _) as [w|] eqn:Ew; [|discriminate]. apply matches_when_says in Ew.
    destruct (cty_numerical (cr_type k) _) as [v|] eqn:Ev; [|discriminate]. inversion H; subst.
    apply cty_numerical_spec in Ev; [|apply (C i k Ek)]. destruct Ew. apply (ry_crit cs x i k w v); auto.
  - intros H. inversion H as [? i k w v _ Ek Nk Fk Hw Ha Hv|? all l T']; subst.
    + rewrite (proj2 (find_first_iff cs _ i)) by (exists k; auto). rewrite Ek, (proj2 (matches_when_says _ _ w)) by auto.
      rewrite (proj2 (cty_numerical_spec (cr_type k) _ v (C i k Ek))) by auto. reflexivity.
    + rewrite T in T'. discriminate.
Qed.

Lemma Forall2_nil_l : forall A B (R : A -> B -> Prop) l, Forall2 R [] l <-> l = [].
Proof. intros. split; [intros H; inversion H; auto|intros ->; constructor]. Qed.

Lemma rule_from_says : forall cs, crits_ok cs -> forall x r, rule_from_xml cs x = Ok r <-> rule_says cs x r.
Proof.
  intros cs C x. induction x as [s|t a c IH] using xnode_ind_nested; intros r.
  - split; [discriminate|]. intros H. inversion H; discriminate.
  - rewrite rule_from_eq. destruct (str_eqb t (lit "CompoundRule")) eqn:Et.
    + apply str_eqb_eq in Et. subst t.
      assert (forall l, rules_from cs c = Ok l <-> Forall2 (rule_says cs) (filter is_elem c) l) as H.
      { clear r. induction c as [|k c IHc]; intros l; cbn [rules_from filter].
        - rewrite Forall2_nil_l. split; [intros Q; inversion Q; auto|intros ->; auto].
        - inversion IH as [|? ? Hk Hc]; subst. specialize (IHc Hc). destruct (is_elem k); [|apply IHc]. split.
          + intros H. destruct (rule_from_xml cs k) as [k'| | |] eqn:Ek; try discriminate. cbn [obind] in H. destruct (rules_from cs c) as [l'| | |] eqn:El; try discriminate.
            cbn [obind] in H. inversion H; subst. constructor; [apply Hk; auto|apply IHc; auto].
          + intros H. inversion H as [|? k' ? l' H1 H2]; subst. apply Hk in H1. rewrite H1. cbn [obind]. apply IHc in H2. rewrite H2. reflexivity. }
      split.
      * intros Q. unfold omap in Q. destruct (rules_from cs c) as [l| | |] eqn:El; try discriminate. cbn [obind] in Q. inversion Q; subst.
        apply ry_comp; [reflexivity|apply str_eqb_eq|]. apply H. reflexivity.
      * intros Q. inversion Q as [? ? ? ? ? T|? all l _ Ha Hl]; subst; [discriminate|]. apply H in Hl. cbn [x_content] in Hl. unfold omap. rewrite Hl. cbn [obind].
        f_equal. f_equal. destruct all.
        -- apply str_eqb_eq. apply Ha. auto.
        -- destruct (str_eqb _ _) eqn:Es; auto. apply str_eqb_eq in Es. apply Ha in Es. discriminate.
    + destruct (str_eqb t (lit "SelectionCriterionRule")) eqn:Es.
      * apply str_eqb_eq in Es. apply crit_from_says; auto.
      * split; [intros H; exfalso; eapply misplaced_not_ok; eauto|]. intros H. inversion H as [? ? ? ? ? T|? ? ? T]; subst; cbn [x_type] in T; subst t; discriminate.
Qed.

Lemma config_from_says : forall cs, crits_ok cs -> forall id x, config_shaped x ->
  (exists o, config_from_xml cs id x = Ok (Config id (x_name x) o []) /\ config_says cs x o)
  \/ (config_from_xml cs id x = Err /\ forall o, ~ config_says cs x o).
Proof.
  intros cs C id x [T H]. unfold config_from_xml. rewrite T, str_eqb_refl. destruct H as [H|[r [H [Tr Sr]]]]; rewrite H.
  - left. exists None. split; [auto|exact H].
  - rewrite Tr, str_eqb_refl. destruct (rule_from_xml cs r) as [r'| | |] eqn:Er.
    + left. exists (Some r'). split; [reflexivity|]. exists r. split; [auto|]. apply rule_from_says; auto.
    + right. split; [reflexivity|]. intros [r'|] Q; [|cbn in Q; congruence]. destruct Q as [xr [Q1 Q2]]. rewrite H in Q1. inversion Q1; subst. apply rule_from_says in Q2; auto. congruence.
    + exfalso. exact (rule_from_no_abort _ _ Er).
    + exfalso. exact (rule_shaped_not_UB _ _ Sr Er).
Qed.

Lemma configs_from_says : forall cs, crits_ok cs -> forall xs id, Forall config_shaped xs ->
  (exists l, configs_from_xml cs id xs = Ok l /\ Forall2 (fun x c => cf_name c = x_name x /\ config_says cs x (cf_rule c)) xs l)
  \/ (configs_from_xml cs id xs = Err /\ exists x, In x xs /\ forall o, ~ config_says cs x o).
Proof.
  intros cs C xs. induction xs as [|x xs IH]; intros id F; cbn [configs_from_xml].
  - left. exists []. split; [auto|constructor].
  - inversion F as [|? ? Hx Hr]; subst. destruct (config_from_says cs C id x Hx) as [[o [E H]]|[E H]]; rewrite E; cbn [obind].
    + destruct (IH (S id) Hr) as [[l [El Fl]]|[El [z [Iz Hz]]]]; rewrite El; cbn [obind].
      * left. eexists. split; [reflexivity|]. constructor; auto.
      * right. split; [auto|]. exists z. split; [right; auto|auto].
    + right. split; [auto|]. exists x. split; [left; auto|auto].
Qed.

(** ** Elements *)

Lemma under_iff : forall p q, under p q = true <-> above p q.
Proof.
  induction p as [|i p IH]; intros q; cbn [under]; [split; [intros _; exists q; auto|auto]|]. destruct q as [|j q].
  - split; [discriminate|]. intros [r H]. discriminate.
  - rewrite andb_true_iff, Nat.eqb_eq, IH. split.
    + intros [-> [r ->]]. exists r. auto.
    + intros [r H]. inversion H; subst. split; auto. exists r. auto.
Qed.
Lemma under_false : forall p q, under p q = false <-> ~ above p q.
Proof. intros p q. rewrite <- under_iff. destruct (under p q); split; congruence. Qed.

Lemma elements_says : forall y, structure_ok y -> one_syncer y -> forall xs d at0 at_, domain_ok y d -> linked d at0 at_ ->
  (forall c, In c (dm_configs d) -> blank (dm_elems d) c) ->
  exists b d' at', elements_from_xml y xs d at_ = Ok (b, (d', at')) /\ domain_ok y d' /\ linked d' at0 at' /\ same_heads d d'
    /\ (b = true -> elems_say (sy_root y) (dm_elems d) xs (dm_elems d') /\ forall c, In c (dm_configs d') -> blank (dm_elems d') c)
    /\ (b = false -> forall ps, ~ elems_say (sy_root y) (dm_elems d) xs ps).
Proof.
  intros y St O xs. induction xs as [|x xs IH]; intros d at0 at_ K L Bl; cbn [elements_from_xml].
  - exists true, d, at_. split; [auto|]. split; [auto|]. split; [auto|]. split; [apply same_heads_refl|]. split; [|discriminate]. intros _. split; [constructor|auto].
  - change (x_attr0 (lit "Path") x) with (path_of x). destruct (locate (sy_root y) (path_of x)) as [p|] eqn:El.
    2: { exists false, d, at_. split; [auto|]. split; [auto|]. split; [auto|]. split; [apply same_heads_refl|]. split; [discriminate|]. intros _ ps Q. inversion Q; congruence. }
    destruct L as [L1 [L2 L3]].
    destruct (dm_add_ok y p None d at_ St O (locate_elem _ _ _ (proj1 St) El) ltac:(discriminate) K L1 L2) as [b [d' [at' [E [Hb [F T]]]]]].
    rewrite E. cbn [obind fst snd]. destruct b.
    + destruct (T eq_refl) as [K' [I' [L1' [L3' [L2' [El' [F' [N' [A' La']]]]]]]]].
      assert (same_heads d d') as H1.
      { repeat split; auto. eapply Forall2_impl2; [|exact F']. intros c c' _ [? [? [? _]]]. repeat split; auto. }
      assert (forall q, In q (dm_elems d) -> under q p = false) as Nu.
      { intros q Iq. apply under_false. intros Ab. apply (proj1 Hb eq_refl). exists q. auto. }
      assert (filter (fun q => negb (under p q)) (dm_elems d) ++ [p] = dm_elems d') as Ed.
      { rewrite El'. f_equal. apply filter_ext_in. intros q Iq. apply not_under. apply under_false. auto. }
      destruct (IH d' at0 at' K') as [b2 [d2 [at2 [E2 [K2 [L2'' [H2 [T2 F2]]]]]]]].
      { split; [auto|]. split; [auto|]. intros q id Hq. rewrite I' in Hq. rewrite L3' by auto. apply L3; auto. }
      { intros c' Ic'. destruct (Forall2_in_r _ _ _ _ _ _ F' Ic') as [c [Ic [_ [_ [_ [o [Ao [Po [_ [Vo _]]]]]]]]]].
        destruct (Bl c Ic) as [Bp Bv]. split.
        - rewrite Ao, map_app, El', <- Bp. cbn [map]. rewrite Po. f_equal. clear. induction (cf_areas c) as [|k l IHl]; [reflexivity|]. cbn [filter map]. unfold not_below at 1.
          destruct (negb (descendant_of (ar_pos k) p)); cbn [map]; rewrite IHl; reflexivity.
        - rewrite Ao. apply Forall_app. split; [|constructor; auto]. rewrite Forall_forall in *. intros k Ik. apply filter_In in Ik. apply Bv. apply Ik. }
      rewrite E2. exists b2, d2, at2. split; [auto|]. split; [auto|]. split; [auto|]. split; [eapply same_heads_trans; eauto|]. split.
      * intros Q. destruct (T2 Q) as [T3 T4]. split; [|auto]. apply (ey_more _ _ x xs p); auto. rewrite Ed. auto.
      * intros Q ps Hs. specialize (F2 Q). inversion Hs as [|? ? ? p' ? Lp Np Rp]; subst. rewrite El in Lp. inversion Lp; subst p'. rewrite Ed in Rp. exact (F2 _ Rp).
    + destruct (F eq_refl) as [-> ->]. exists false, d, at_. split; [auto|]. split; [auto|]. split; [split; auto|]. split; [apply same_heads_refl|]. split; [discriminate|].
      intros _ ps Hs. inversion Hs as [|? ? ? p' ? Lp Np Rp]; subst. rewrite El in Lp. inversion Lp; subst p'. apply eq_true_false_abs with (b := true); [auto|].
      symmetry. rewrite <- (proj2 Hb); [auto|]. intros [q [Iq Ab]]. apply under_iff in Ab. rewrite (Np q Iq) in Ab. discriminate.
Qed.

(** ** One setting *)

Lemma set_list_any : forall t f vals off b1 b1' b2 ok b2', array_set_list t f vals off b1 = Ok (true, b1') ->
  array_set_list t f vals off b2 = Ok (ok, b2') -> ok = true.
Proof.
  intros t f vals. induction vals as [|v vals IH]; intros off b1 b1' b2 ok b2' H1 H2; cbn [array_set_list] in *.
  - inversion H2; auto.
  - destruct (to_bb_str t f v) as [u| | |]; try discriminate. unfold bb_write_int, bb_write in *. destruct (bb_access_ok b1 _ _); [|discriminate]. destruct (bb_access_ok b2 _ _); [|discriminate].
    cbn [obind] in *. eapply IH; eauto.
Qed.

(** Whether a text is accepted does not depend on the memory. *)
Lemma leaf_set_any : forall k f s off b1 b1' b2, kind_wf k -> off + size_of_kind k <= List.length b1 -> off + size_of_kind k <= List.length b2 ->
  leaf_set k f [] s off 0 b1 = Ok (true, b1') -> exists b2', leaf_set k f [] s off 0 b2 = Ok (true, b2').
Proof.
  intros k f s off b1 b1' b2 W L1 L2 H. destruct (leaf_set_frame k f [] s off b2 W L2) as [ok [b2' [E _]]]. exists b2'. rewrite E. f_equal. f_equal.
  unfold leaf_set in *. rewrite ?Nat.sub_0_r in *. destruct k; try discriminate.
  - rewrite bitparam_set_str_core in *. pose proof (proj1 (strtoull0_range s)) as P. cbn [kind_wf size_of_kind] in W, L1, L2.
    destruct (bit_set_core t (strtoull0 s) off b1 W L1 P) as [A1 B1]. destruct (bit_set_core t (strtoull0 s) off b2 W L2 P) as [A2 B2].
    destruct (Z_le_gt_dec (strtoull0 s) (bt_max t)) as [L|L].
    + destruct (A2 L) as [c2 [E2 _]]. rewrite E2 in E. inversion E; auto.
    + rewrite B1 in H by lia. discriminate.
  - unfold param_set_str in *. destruct (to_bb_str t f s) as [u| | |]; try discriminate. cbn [obind] in *. unfold bb_write_int, bb_write in *.
    destruct (bb_access_ok b2 _ _); [|discriminate]. inversion E; auto.
  - unfold array_access_set in *. cbn [array_index] in *. rewrite Nat.sub_0_r in *. unfold array_set_text in *. destruct (len <? _); [discriminate|]. eapply set_list_any; eauto.
  - unfold string_set in *. destruct (_ <=? _); [discriminate|]. unfold bb_write_string in *. destruct (bb_access_ok b2 _ _); [|discriminate]. inversion E; auto.
Qed.

Lemma asked_param : forall root p e x raw r k raw' s, elem_wf root = true -> elem_at root p = Some e -> asked e x raw r k raw' s ->
  exists c, param_at root (p ++ r) c /\ e_kind c = k.
Proof.
  intros root p e x raw r k raw' s W E [pre [post [xr [Ep _]]]]. apply (param_of_params root W p e E). rewrite Ep. apply in_elt.
Qed.

Lemma sets_any : forall y p e xc r k raw s b1 b1' b2, structure_ok y -> elem_at (sy_root y) p = Some e -> asked e xc false r k raw s ->
  List.length b1 = storage_size e -> List.length b2 = storage_size e -> sets y p r k raw s b1 b1' -> exists b2', sets y p r k raw s b2 b2'.
Proof.
  intros y p e xc r k raw s b1 b1' b2 [W Fa] E A L1 L2 H. destruct (asked_param _ _ _ _ _ _ _ _ _ W E A) as [c [Pc <-]]. unfold sets in *. rewrite leaf_set_base in H.
  destruct (area_room (sy_root y) (Area p b1 false) W (ex_intro _ e (conj E L1)) r c Pc) as [_ R1].
  destruct (area_room (sy_root y) (Area p b2 false) W (ex_intro _ e (conj E L2)) r c Pc) as [_ R2]. cbn [ar_pos ar_bb] in R1, R2.
  rewrite (storage_size_kind c (proj2 Pc)) in R1, R2.
  destruct (leaf_set_any _ _ _ _ _ _ b2 (param_kind_wf _ _ c W Pc) R1 R2 H) as [b2' H2]. exists b2'. rewrite leaf_set_base. exact H2.
Qed.

Lemma area_from_says : forall y x a, structure_ok y -> area_ok (sy_root y) a ->
  exists b a', area_from_xml y x a = Ok (b, a') /\ ar_pos a' = ar_pos a /\ area_ok (sy_root y) a'
    /\ (b = true <-> setting_ok y (ar_pos a) x) /\ (b = true -> ar_valid a' = true /\ records y (ar_pos a) x (ar_bb a')).
Proof.
  intros y x a St A. destruct (area_from_ok y x a St A) as [b [a' [H [Pa [Oa Va]]]]]. exists b, a'. split; [auto|]. split; [auto|]. split; [auto|].
  pose proof A as [e [E Ln]]. unfold area_from_xml in H. rewrite E in H. set (p := ar_pos a) in *.
  assert (forall z : area, Ok (false, z) = Ok (b, a') -> (forall xc, x_elems x = [xc] -> ~ tagged e xc) -> (b = true <-> setting_ok y p x) /\ (b = true -> ar_valid a' = true /\ records y p x (ar_bb a'))) as No.
  { intros z Q N. inversion Q; subst b. split; [|discriminate]. split; [discriminate|]. intros [xc [e' [[E' [Ex [T _]]] _]]]. rewrite E in E'. inversion E'; subst e'. exfalso. exact (N xc Ex T). }
  destruct (x_elems x) as [|xc [|? ?]] eqn:Ex; [apply (No a H); discriminate| |apply (No a H); discriminate].
  destruct (type_matches (e_kind e) xc && str_eqb (x_name xc) (e_name e)) eqn:Tg.
  2: { apply (No a H). intros z Q T. inversion Q; subst z. apply tagged_spec in T. rewrite (proj1 T), (proj2 T) in Tg. discriminate. }
  apply andb_true_iff in Tg. assert (tagged e xc) as T by (apply tagged_spec; exact Tg). clear No.
  destruct (import_spec (sy_root y) (proj1 St) (proj2 St) p e E xc (offset (sy_root y) p) (le_n _) false false (ar_bb a)
              (area_room _ _ (proj1 St) A)) as [ok [raw' [bb' [Im [L [Ia [_ [Ib _]]]]]]]].
  rewrite Im in H. cbn [obind] in H. inversion H; subst b a'. cbn [ar_bb ar_valid] in *. split.
  - rewrite Ia. split.
    + intros [F Ta]. exists xc, e. split; [repeat split; auto; apply T|]. intros r k raw s As. destruct (Ta r k raw s As) as [b1 Hb]. exists (ar_bb a), b1. split; [exact Ln|exact Hb].
    + intros [xc' [e' [[E' [Ex' [_ F]]] Hs]]]. rewrite E in E'. inversion E'; subst e'. rewrite Ex in Ex'. inversion Ex'; subst xc'. split; [exact F|].
      intros r k raw s As. destruct (Hs r k raw s As) as [b0 [b1 [L0 H0]]]. exact (sets_any y p e xc r k raw s b0 b1 (ar_bb a) St E As L0 Ln H0).
  - intros ->. rewrite orb_true_r in *. split; [auto|]. destruct (proj1 Ia eq_refl) as [F Ta]. exists xc, e. split; [repeat split; auto; apply T|].
    intros r k raw s As. destruct (Ta r k raw s As) as [b1 Hb]. exists (ar_bb a), b1. split; [exact Ln|]. split; [exact Hb|].
    intros i Ho. exact (Ib eq_refl r k raw s b1 As Hb i Ho).
Qed.

(** ** The settings of one configuration *)

Lemma filter_none : forall A (f : A -> bool) l, (forall a, In a l -> f a = false) -> filter f l = [].
Proof. intros A f l H. induction l as [|a l IH]; [reflexivity|]. cbn [filter]. rewrite (H a (or_introl eq_refl)). apply IH. intros b Hb. apply H. right. auto. Qed.

Lemma str_eqb_false : forall a b, a <> b -> str_eqb a b = false.
Proof. intros a b H. destruct (str_eqb a b) eqn:E; auto. apply str_eqb_eq in E. contradiction. Qed.

Lemma reorder_nil : forall root l, reorder root [] l = l.
Proof. intros root l. unfold reorder. cbn [flat_map existsb negb app]. induction l as [|p l IH]; [reflexivity|]. cbn [filter]. f_equal. exact IH. Qed.

Lemma reorder_cons : forall root s firsts l1 p l2, path_in root p = s -> ~ In s firsts -> (forall q, In q (l1 ++ l2) -> path_in root q <> s) ->
  reorder root (s :: firsts) (l1 ++ p :: l2) = p :: reorder root firsts (l1 ++ l2).
Proof.
  intros root s firsts l1 p l2 Ep Ns Nq. unfold reorder. cbn [flat_map].
  assert (filter (fun q => str_eqb (path_in root q) s) (l1 ++ p :: l2) = [p]) as ->.
  { rewrite filter_app. cbn [filter]. rewrite Ep, str_eqb_refl, !filter_none; [reflexivity| |]; intros q Iq; apply str_eqb_false, Nq, in_app_iff; auto. }
  cbn [app]. f_equal. f_equal.
  - revert Ns. clear - Ep. induction firsts as [|t firsts IH]; intros Ns; [reflexivity|]. cbn [flat_map]. rewrite IH by (intros Q; apply Ns; right; auto). f_equal.
    rewrite !filter_app. cbn [filter]. rewrite Ep, (str_eqb_false s t); [reflexivity|]. intros ->. apply Ns. left. auto.
  - rewrite !filter_app. cbn [filter existsb]. rewrite Ep, str_eqb_refl. cbn [orb negb]. f_equal; apply filter_ext_in; intros q Iq; rewrite (str_eqb_false _ s); auto; apply Nq, in_app_iff; auto.
Qed.

Definition given (y : system) (ps : list (list nat)) (x : xnode) : Prop := exists p, In p ps /\ path_of x = path_in (sy_root y) p /\ setting_ok y p x.
Definition taken (y : system) (o : option xnode) (a a' : area) : Prop :=
  match o with Some xe => ar_valid a' = true /\ records y (ar_pos a) xe (ar_bb a') | None => a' = a end.

Lemma areas_from_says : forall y, structure_ok y -> names_ok (sy_root y) -> forall xs placed rest, Forall (area_ok (sy_root y)) (placed ++ rest) ->
  NoDup (map ar_pos (placed ++ rest)) -> NoDup (map path_of xs) -> (forall x k, In x xs -> In k placed -> area_path y k <> path_of x) ->
  exists b l, areas_from_xml y xs placed rest = Ok (b, l)
    /\ (b = true <-> forall x, In x xs -> given y (map ar_pos rest) x)
    /\ (b = true -> map ar_pos l = map ar_pos placed ++ reorder (sy_root y) (map path_of xs) (map ar_pos rest)
        /\ forall a', In a' l -> In a' placed \/ exists a, In a rest /\ ar_pos a' = ar_pos a
             /\ taken y (find (fun e => str_eqb (path_of e) (path_in (sy_root y) (ar_pos a))) xs) a a').
Proof.
  intros y St Nm xs. induction xs as [|x xs IH]; intros placed rest Oa Nd Np Dj; cbn [areas_from_xml].
  - exists true, (placed ++ rest). split; [auto|]. split; [split; [intros _ ? []|auto]|]. intros _. rewrite map_app. cbn [map]. rewrite reorder_nil. split; [auto|].
    intros a' Ia. apply in_app_iff in Ia. destruct Ia as [Ia|Ia]; [auto|]. right. exists a'. cbn [find taken]. auto.
  - cbn zeta. change (x_attr0 (lit "Path") x) with (path_of x). pose proof Oa as Oa0. rewrite Forall_forall in Oa.
    assert (find_area_path y (path_of x) placed = None) as Fp by (apply find_area_path_None; intros k Ik; apply Dj; [left; auto|auto]).
    rewrite find_area_path_app, Fp. inversion Np as [|? ? Nx Np']; subst.
    assert (forall p k, In p (map ar_pos rest) -> In k rest -> path_in (sy_root y) p = area_path y k -> p = ar_pos k) as Inj.
    { intros p k Ip Ik Q. apply in_map_iff in Ip. destruct Ip as [b [<- Ib]]. destruct (Oa b ltac:(apply in_app_iff; auto)) as [e1 [E1 _]]. destruct (Oa k ltac:(apply in_app_iff; auto)) as [e2 [E2 _]].
      apply (path_inj (sy_root y)); auto; congruence. }
    destruct (find_area_path y (path_of x) rest) as [a|] eqn:Fb.
    2: { exists false, (placed ++ rest). split; [auto|]. split; [|discriminate]. split; [discriminate|]. intros H. destruct (H x (or_introl eq_refl)) as [p [Ip [Pp _]]].
         apply in_map_iff in Ip. destruct Ip as [k [Pk Ik]]. exfalso. apply (proj1 (find_area_path_None _ _ _) Fb k Ik). unfold area_path. congruence. }
    destruct (find_area_path_split _ _ _ _ Fb) as [l1 [l2 [El [Pb [_ Dp]]]]].
    assert (In a rest) as Ia by (rewrite El; apply in_elt).
    destruct (area_from_says y x a St (Oa a ltac:(apply in_app_iff; auto))) as [b0 [a' [Ea [Pa [Oa' [Hs Hr]]]]]]. rewrite Ea. cbn [obind fst snd].
    destruct b0.
    2: { exists false, (placed ++ rest). split; [auto|]. split; [|discriminate]. split; [discriminate|]. intros H. apply Hs. destruct (H x (or_introl eq_refl)) as [p [Ip [Pp Sp]]].
         rewrite <- (Inj p a Ip Ia); [exact Sp|]. congruence. }
    unfold splice. rewrite Fp, Dp.
    assert (forall k, In k (l1 ++ l2) -> area_path y k <> path_of x) as Nk.
    { intros k Ik Q. assert (In k rest) as Ik' by (rewrite El; apply in_app_iff in Ik; apply in_app_iff; cbn [In]; tauto).
      assert (ar_pos k = ar_pos a) as Q1 by (apply Inj; [apply in_map; auto|auto|]; unfold area_path in *; congruence).
      rewrite map_app, El, map_app in Nd. cbn [map] in Nd. rewrite app_assoc in Nd. apply NoDup_remove_2 in Nd. apply Nd. rewrite <- Q1, <- app_assoc. apply in_app_iff. right. rewrite <- map_app. apply in_map. auto. }
    destruct (IH (placed ++ [a']) (l1 ++ l2)) as [b [l [E [Hb Hl]]]].
    { apply Forall_forall. intros k Ik. rewrite !in_app_iff in Ik. cbn [In] in Ik. destruct Ik as [[Ik|[<-|[]]]|Ik]; auto.
      - apply Oa. apply in_app_iff. auto.
      - apply Oa. apply in_app_iff. right. rewrite El. apply in_app_iff. cbn [In]. tauto. }
    { eapply Permutation_NoDup; [|exact Nd]. rewrite El, !map_app. cbn [map]. rewrite Pa, <- app_assoc. apply Permutation_app_head. cbn [app].
      apply Permutation_sym, Permutation_middle. }
    { exact Np'. }
    { intros x' k Ix Ik. apply in_app_iff in Ik. destruct Ik as [Ik|[<-|[]]]; [apply Dj; [right; auto|auto]|]. unfold area_path. rewrite Pa. intros Q. apply Nx.
      unfold area_path in Pb. rewrite <- Pb, Q. apply in_map. auto. }
    rewrite E. exists b, l. split; [auto|]. split.
    + rewrite Hb. split.
      * intros H x' [<-|Ix].
        -- exists (ar_pos a). split; [apply in_map; auto|]. split; [symmetry; exact Pb|]. apply Hs. auto.
        -- destruct (H x' Ix) as [p [Ip [Pp Sp]]]. exists p. split; [|auto]. rewrite El, map_app. cbn [map]. rewrite map_app in Ip. apply in_app_iff in Ip. apply in_app_iff. cbn [In]. tauto.
      * intros H x' Ix. destruct (H x' (or_intror Ix)) as [p [Ip [Pp Sp]]]. exists p. split; [|auto].
        rewrite El, map_app in Ip. cbn [map] in Ip. rewrite map_app. apply in_app_iff in Ip. apply in_app_iff. destruct Ip as [Ip|[<-|Ip]]; auto.
        exfalso. apply Nx. unfold area_path in Pb. rewrite <- Pb, <- Pp. apply in_map. auto.
    + intros Q. destruct (Hl Q) as [H1 H2]. split.
      * rewrite H1, map_app. cbn [map]. rewrite Pa, <- app_assoc. cbn [app]. f_equal. rewrite El, !map_app. cbn [map]. symmetry. apply reorder_cons; auto.
        intros q Iq. rewrite <- map_app in Iq. apply in_map_iff in Iq. destruct Iq as [k [<- Ik]]. apply Nk. auto.
      * intros a2 Ia2. destruct (H2 a2 Ia2) as [Ip|[k [Ik [Pk Tk]]]].
        -- apply in_app_iff in Ip. destruct Ip as [Ip|[<-|[]]]; [auto|]. right. exists a. split; [auto|]. split; [auto|]. cbn [find]. unfold area_path in Pb. rewrite Pb, str_eqb_refl. cbn [taken]. apply Hr. auto.
        -- right. exists k. split; [rewrite El; apply in_app_iff in Ik; apply in_app_iff; cbn [In]; tauto|]. split; [auto|]. cbn [find].
           rewrite (str_eqb_false (path_of x)); [exact Tk|]. intros Q'. apply (Nk k Ik). unfold area_path. auto.
Qed.

Lemma find_rev : forall (f : xnode -> bool) xs, (forall a b, In a xs -> In b xs -> f a = true -> f b = true -> a = b) -> find f (rev xs) = find f xs.
Proof.
  intros f xs U. destruct (find f xs) as [x|] eqn:E.
  - apply find_some in E. destruct E as [Ix Fx]. destruct (find f (rev xs)) as [z|] eqn:Ez.
    + apply find_some in Ez. destruct Ez as [Iz Fz]. f_equal. apply U; auto. apply in_rev. auto.
    + rewrite (List.find_none _ _ Ez x) in Fx; [discriminate|]. apply in_rev in Ix. auto.
  - destruct (find f (rev xs)) as [z|] eqn:Ez; auto. apply find_some in Ez. destruct Ez as [Iz Fz]. rewrite (List.find_none _ _ E z) in Fz; [discriminate|]. apply in_rev. auto.
Qed.
Lemma NoDup_map_inj : forall A B (f : A -> B) l a b, NoDup (map f l) -> In a l -> In b l -> f a = f b -> a = b.
Proof.
  intros A B f l a b. induction l as [|k l IH]; intros N Ia Ib Q; [destruct Ia|]. cbn [map] in N. inversion N as [|? ? Nk Nl]; subst. destruct Ia as [<-|Ia], Ib as [<-|Ib]; auto.
  - exfalso. apply Nk. rewrite Q. apply in_map. auto.
  - exfalso. apply Nk. rewrite <- Q. apply in_map. auto.
Qed.
Lemma find_rev_path : forall s xs, NoDup (map path_of xs) -> find (fun e => str_eqb (path_of e) s) (rev xs) = find (fun e => str_eqb (path_of e) s) xs.
Proof.
  intros s xs N. apply find_rev. intros a b Ia Ib Fa Fb. apply str_eqb_eq in Fa, Fb. eapply NoDup_map_inj; eauto. congruence.
Qed.

(** ** The settings of a domain *)

Definition block_read (y : system) (ps : list (list nat)) (names : list str) (b : xnode) : Prop :=
  In (x_name b) names /\ forall xe, In xe (x_elems b) -> given y ps xe.
Definition settled (y : system) (bs : list xnode) (n : str) (c c' : config) : Prop :=
  map ar_pos (cf_areas c') = order (sy_root y) bs n (map ar_pos (cf_areas c))
  /\ forall a', In a' (cf_areas c') -> exists a, In a (cf_areas c) /\ ar_pos a' = ar_pos a /\ taken y (own (sy_root y) bs n (ar_pos a)) a a'.

Lemma settled_nil : forall y n c, settled y [] n c c.
Proof. intros y n c. split; [reflexivity|]. intros a Ia. exists a. cbn. auto. Qed.

Lemma from_settings_says : forall y b l c, structure_ok y -> names_ok (sy_root y) -> config_ok (sy_root y) l c -> NoDup l -> NoDup (map path_of (x_elems b)) ->
  exists ok c', from_settings y b c = Ok (ok, c') /\ config_ok (sy_root y) l c' /\ cf_id c' = cf_id c /\ same_head c c'
    /\ (ok = true <-> forall xe, In xe (x_elems b) -> given y l xe) /\ (ok = true -> settled y [b] (x_name b) c c').
Proof.
  intros y b l c St Nm Kc Nl Np. destruct (from_settings_ok y b l c St Kc) as [ok [c' [E [Kc' [Ic' Hc']]]]]. exists ok, c'. split; [auto|]. split; [auto|]. split; [auto|]. split; [auto|].
  destruct Kc as [Pm Fo]. unfold from_settings in E.
  destruct (areas_from_says y St Nm (x_elems b) [] (cf_areas c) Fo) as [ok' [l' [E' [Hb Hl]]]].
  { cbn [app]. eapply Permutation_NoDup; [apply Permutation_sym; exact Pm|auto]. } { exact Np. } { intros ? ? _ []. }
  rewrite E' in E. cbn [obind fst snd] in E. inversion E; subst ok' c'. split.
  - rewrite Hb. split; intros H xe Ix; destruct (H xe Ix) as [p [Ip Q]]; exists p; (split; [|auto]); [eapply Permutation_in; eauto|eapply Permutation_in; [apply Permutation_sym; eauto|auto]].
  - intros Q. destruct (Hl Q) as [H1 H2]. split.
    + unfold order. cbn [filter]. rewrite str_eqb_refl. cbn [fold_left with_areas cf_areas]. exact H1.
    + cbn [with_areas cf_areas]. intros a' Ia. destruct (H2 a' Ia) as [[]|[a [I1 [I2 I3]]]]. exists a. split; [auto|]. split; [auto|].
      unfold own. cbn [filter]. rewrite str_eqb_refl. cbn [flat_map]. rewrite app_nil_r, find_rev_path by auto. exact I3.
Qed.

Lemma find_app_l : forall A (f : A -> bool) l1 l2, find f (l1 ++ l2) = match find f l1 with Some x => Some x | None => find f l2 end.
Proof. intros A f l1 l2. induction l1 as [|a l1 IH]; [reflexivity|]. cbn [app find]. destruct (f a); auto. Qed.

Lemma settled_trans : forall y b bs n c c1 c2, settled y [b] n c c1 -> settled y bs n c1 c2 -> settled y (b :: bs) n c c2.
Proof.
  intros y b bs n c c1 c2 [A1 A2] [B1 B2]. split.
  - rewrite B1, A1. unfold order. cbn [filter]. destruct (str_eqb (x_name b) n); reflexivity.
  - intros a2 Ia2. destruct (B2 a2 Ia2) as [a1 [Ia1 [P1 T1]]]. destruct (A2 a1 Ia1) as [a [Ia [P T]]]. exists a. split; [auto|]. split; [congruence|].
    assert (own (sy_root y) (b :: bs) n (ar_pos a) = match own (sy_root y) bs n (ar_pos a1) with Some e => Some e | None => own (sy_root y) [b] n (ar_pos a) end) as ->.
    { rewrite P. unfold own. cbn [filter]. destruct (str_eqb (x_name b) n); cbn [flat_map].
      - rewrite rev_app_distr, find_app_l, app_nil_r. reflexivity.
      - cbn [rev find]. destruct (find _ _); reflexivity. }
    unfold taken in *. destruct (own (sy_root y) bs n (ar_pos a1)) as [e|]; [rewrite <- P; exact T1|]. subst a2. exact T.
Qed.
Lemma settled_skip : forall y b n c, x_name b <> n -> settled y [b] n c c.
Proof.
  intros y b n c H. split.
  - unfold order. cbn [filter]. rewrite (str_eqb_false _ _ H). reflexivity.
  - intros a Ia. exists a. split; [auto|]. split; [auto|]. unfold own. cbn [filter]. rewrite (str_eqb_false _ _ H). reflexivity.
Qed.

Lemma first_named : forall n cfs, In n (map cf_name cfs) -> ~ In [] (map cf_name cfs) ->
  exists l1 c l2, cfs = l1 ++ c :: l2 /\ cf_name c = n /\ cf_path_name c = n /\ forall k, In k l1 -> cf_path_name k <> n.
Proof.
  intros n cfs. induction cfs as [|k cfs IH]; intros I Ne; [destruct I|]. cbn [map In] in *.
  assert (cf_path_name k = cf_name k) as Pk by (apply path_name_named; intros Q; apply Ne; auto).
  destruct (str_eqb (cf_name k) n) eqn:E.
  - apply str_eqb_eq in E. exists [], k, cfs. split; [auto|]. split; [auto|]. split; [congruence|]. intros ? [].
  - assert (cf_name k <> n) as Nk by (intros Q; rewrite Q, str_eqb_refl in E; discriminate). destruct I as [I|I]; [congruence|].
    destruct (IH I ltac:(tauto)) as [l1 [c [l2 [-> [H1 [H2 H3]]]]]]. exists (k :: l1), c, l2. split; [auto|]. split; [auto|]. split; [auto|]. intros q [<-|Iq]; [congruence|auto].
Qed.

Lemma Forall2_same : forall A (R : A -> A -> Prop) l, (forall a, In a l -> R a a) -> Forall2 R l l.
Proof. intros A R l H. induction l; constructor; [apply H; left; auto|]. apply IHl. intros b Hb. apply H. right. auto. Qed.

Lemma heads_names : forall cfs cfs', Forall2 same_head cfs cfs' -> map cf_name cfs' = map cf_name cfs.
Proof. intros cfs cfs' F. induction F as [|c c' l l' [_ [H _]] F IH]; [reflexivity|]. cbn [map]. congruence. Qed.

Lemma settings_says : forall y, structure_ok y -> names_ok (sy_root y) -> forall bs d, domain_ok y d -> NoDup (map cf_name (dm_configs d)) -> ~ In [] (map cf_name (dm_configs d)) ->
  (forall b, In b bs -> NoDup (map path_of (x_elems b))) ->
  exists ok d', settings_from_xml y bs d = Ok (ok, d') /\ domain_ok y d' /\ same_shape d d' /\ same_heads d d'
    /\ (ok = true <-> forall b, In b bs -> block_read y (dm_elems d) (map cf_name (dm_configs d)) b)
    /\ (ok = true -> Forall2 (fun c c' => settled y bs (cf_name c) c c') (dm_configs d) (dm_configs d')).
Proof.
  intros y St Nm bs. induction bs as [|b bs IH]; intros d K Nd Ne Np; cbn [settings_from_xml].
  - exists true, d. split; [auto|]. split; [auto|]. split; [repeat split|]. split; [apply same_heads_refl|]. split; [split; [intros _ ? []|auto]|].
    intros _. apply Forall2_same. intros c _. apply settled_nil.
  - change (fun c => do w <- areas_from_xml y (x_elems b) [] (cf_areas c); Ok (fst w, with_areas c (snd w))) with (from_settings y b).
    destruct (dm_on_config_ok y (x_name b) (from_settings y b) (fun c ok c' => same_head c c'
        /\ (ok = true <-> forall xe, In xe (x_elems b) -> given y (dm_elems d) xe) /\ (ok = true -> settled y [b] (x_name b) c c')) d K) as [ok [d' [E [K' [Sh [N [A [La [Fn Ff]]]]]]]]].
    { intros c Kc. destruct (from_settings_says y b _ c St Nm Kc (proj1 (dk_separate _ _ K)) (Np b (or_introl eq_refl))) as [ok [c' H]]. exists ok, c'. tauto. }
    rewrite E. cbn [obind fst snd]. destruct (in_dec (list_eq_dec ascii_dec) (x_name b) (map cf_name (dm_configs d))) as [In_|Out].
    + destruct (first_named _ _ In_ Ne) as [l1 [c [l2 [Ec [Hn [Hp Hk]]]]]].
      destruct (Ff c (dm_find_at _ d l1 c l2 Ec Hp Hk)) as [m1 [m2 [c' [Ec1 [Hk1 [Ec2 [Ic' [Kc' [Hh [Hok Hset]]]]]]]]]].
      assert (l1 = m1 /\ l2 = m2) as [-> ->].
      { rewrite Ec in Ec1. clear - Ec1 Hk Hk1 Hp. revert m1 Ec1 Hk1. induction l1 as [|k l1 IHl]; intros m1 Q Hk1; destruct m1 as [|k1 m1]; cbn [app] in Q; inversion Q; subst; auto.
        - exfalso. apply (Hk1 k1); [left; auto|exact Hp].
        - exfalso. apply (Hk c); [left; auto|exact Hp].
        - destruct (IHl (fun q Iq => Hk q (or_intror Iq)) m1 H1 (fun q Iq => Hk1 q (or_intror Iq))) as [-> ->]. auto. }
      assert (same_heads d d') as H1.
      { split; [apply Sh|]. split; [auto|]. split; [auto|]. split; [auto|]. rewrite Ec, Ec2. apply Forall2_app; [apply same_heads_list_refl|]. constructor; [exact Hh|apply same_heads_list_refl]. }
      destruct ok.
      * assert (map cf_name (dm_configs d') = map cf_name (dm_configs d)) as Mn by (apply heads_names; destruct H1 as [_ [_ [_ [_ H1]]]]; exact H1).
        destruct (IH d' K') as [ok2 [d2 [E2 [K2 [S2 [H2 [Hb2 Hs2]]]]]]]; [rewrite Mn; auto|rewrite Mn; auto|intros b' Ib; apply Np; right; auto|].
        rewrite E2. exists ok2, d2. split; [auto|]. split; [auto|]. split; [destruct Sh as [? [? ?]], S2 as [? [? ?]]; repeat split; congruence|]. split; [eapply same_heads_trans; eauto|].
        rewrite Mn in Hb2. replace (dm_elems d') with (dm_elems d) in Hb2 by (symmetry; apply Sh). split.
        -- rewrite Hb2. split; [intros H b' [<-|Ib]; [split; [exact In_|apply Hok; auto]|auto]|intros H b' Ib; apply H; right; auto].
        -- intros Q. specialize (Hs2 Q). clear - Ec Ec2 Hs2 Hset Hn Nd Hh. specialize (Hset eq_refl).
           assert (Forall2 (fun k k1 => same_head k k1 /\ settled y [b] (cf_name k) k k1) (dm_configs d) (dm_configs d')) as F1.
           { rewrite Ec, Ec2. rewrite Ec, map_app in Nd. cbn [map] in Nd. apply NoDup_remove_2 in Nd. rewrite <- map_app in Nd. apply Forall2_app; [|constructor].
             - apply Forall2_same. intros k Ik. split; [repeat split|]. apply settled_skip. intros Q. apply Nd. rewrite Hn, Q. apply in_map. apply in_app_iff. auto.
             - split; [exact Hh|]. rewrite Hn. exact Hset.
             - apply Forall2_same. intros k Ik. split; [repeat split|]. apply settled_skip. intros Q. apply Nd. rewrite Hn, Q. apply in_map. apply in_app_iff. auto. }
           pose proof (Forall2_comp _ _ _ _ _ _ _ _ F1 Hs2) as F. eapply Forall2_impl2; [|exact F]. intros k k2 _ [k1 [[[_ [Hk _]] S1] S2]]. rewrite Hk in S2. eapply settled_trans; eauto.
      * exists false, d'. split; [auto|]. split; [auto|]. split; [auto|]. split; [auto|]. split; [|discriminate]. split; [discriminate|]. intros H. apply Hok. apply (H b (or_introl eq_refl)).
    + destruct (Fn) as [-> ->].
      { intros c Ic Q. apply Out. rewrite <- Q, path_name_named; [apply in_map; auto|]. intros Q'. apply Ne. rewrite <- Q'. apply in_map. auto. }
      exists false, d. split; [auto|]. split; [auto|]. split; [repeat split|]. split; [apply same_heads_refl|]. split; [|discriminate]. split; [discriminate|].
      intros H. destruct (H b (or_introl eq_refl)) as [H1 _]. contradiction.
Qed.

(** ** A domain *)

Lemma shaped_parts : forall x, domain_shaped x -> exists xc xe xs, x_elems x = xc :: xe :: xs /\ child_or_last (lit "Configurations") x = Ok xc
  /\ child_or_last (lit "ConfigurableElements") x = Ok xe /\ configurations x = x_elems xc /\ associated x = x_elems xe /\ Forall config_shaped (configurations x).
Proof.
  intros x [T [xc [xe [xs [Ex [Tc [Te [_ F]]]]]]]]. exists xc, xe, xs. split; [auto|]. unfold child_or_last, configurations, associated, part. rewrite Ex. cbn [find]. rewrite Tc, Te.
  change (str_eqb (lit "Configurations") (lit "Configurations")) with true. change (str_eqb (lit "Configurations") (lit "ConfigurableElements")) with false.
  change (str_eqb (lit "ConfigurableElements") (lit "ConfigurableElements")) with true. cbv iota. auto.
Qed.

Lemma settings_part : forall (y : system) (ws : bool) (x : xnode) (d : domain), (if ws then match find (fun c => str_eqb (x_type c) (lit "Settings")) (x_elems x) with
                            | Some xs => settings_from_xml y (x_elems xs) d
                            | None => Ok (true, d)
                            end
                 else Ok (true, d)) = settings_from_xml y (blocks ws x) d.
Proof. intros y [|] x d; [|reflexivity]. unfold blocks, part. destruct (find _ _); reflexivity. Qed.

Lemma first_own_valid : forall y bs ps p, In p ps -> forall cfs cfs', (forall c, In c cfs -> blank ps c) -> (forall c', In c' cfs' -> config_ok (sy_root y) ps c') ->
  Forall2 (fun c c' => settled y bs (cf_name c) c c') cfs cfs' ->
  match first_own (sy_root y) bs (map cf_name cfs) p with
  | Some xe => exists b, first_valid p cfs' b /\ records y p xe (ar_bb b)
  | None => none_valid p cfs'
  end.
Proof.
  intros y bs ps p Ip cfs cfs' Bl Ok_ F. induction F as [|c c' cfs cfs' [_ S2] F IH]; cbn [map first_own].
  - intros k a [].
  - destruct (own (sy_root y) bs (cf_name c) p) as [xe|] eqn:Eo.
    + destruct (Ok_ c' (or_introl eq_refl)) as [Pm _]. assert (In p (map ar_pos (cf_areas c'))) as I by (eapply Permutation_in; [apply Permutation_sym; exact Pm|auto]).
      apply in_map_iff in I. destruct I as [b [Pb Ib]]. destruct (S2 b Ib) as [a [Ia [Pa Ta]]]. rewrite <- Pa, Pb, Eo in Ta. cbn [taken] in Ta. rewrite <- Pa, Pb in Ta. destruct Ta as [V R].
      exists b. split; [|exact R]. exists [], c', cfs'. split; [auto|]. split; [auto|]. split; [auto|]. split; [auto|]. intros ? ? [].
    + assert (forall a, In a (cf_areas c') -> ar_pos a = p -> ar_valid a = false) as Inv.
      { intros b Ib Pb. destruct (S2 b Ib) as [a [Ia [Pa Ta]]]. rewrite <- Pa, Pb, Eo in Ta. cbn [taken] in Ta. subst b.
        destruct (Bl c (or_introl eq_refl)) as [_ Bv]. rewrite Forall_forall in Bv. auto. }
      specialize (IH (fun k Ik => Bl k (or_intror Ik)) (fun k Ik => Ok_ k (or_intror Ik))). destruct (first_own (sy_root y) bs (map cf_name cfs) p) as [xe|].
      * destruct IH as [b [[l1 [g [l2 [-> [H1 [H2 [H3 H4]]]]]]] R]]. exists b. split; [|exact R]. exists (c' :: l1), g, l2. split; [auto|]. split; [auto|]. split; [auto|]. split; [auto|].
        intros k a [<-|Ik] Ia Pa; [apply Inv; auto|]. eapply H4; eauto.
      * intros k a [<-|Ik] Ia Pa; [apply Inv; auto|]. eapply IH; eauto.
Qed.

Lemma Forall2_positions : forall (P : list nat -> area -> Prop) l, (forall a, In a l -> P (ar_pos a) a) -> Forall2 P (map ar_pos l) l.
Proof. intros P l H. induction l as [|a l IH]; [constructor|]. cbn [map]. constructor; [apply H; left; auto|]. apply IH. intros b Ib. apply H. right. auto. Qed.

Lemma filled_says : forall y ws x ps cfs cfs' cfs2, let bs := blocks ws x in map x_name (configurations x) = map cf_name cfs ->
  (forall c, In c cfs -> blank ps c) -> (forall c', In c' cfs' -> config_ok (sy_root y) ps c') ->
  Forall2 (fun c c' => settled y bs (cf_name c) c c') cfs cfs' ->
  Forall2 (fun c c' => Forall2 (filled cfs') (cf_areas c) (cf_areas c')) cfs' cfs2 ->
  Forall2 (fun c c2 => Forall2 (area_says y ws None x (cf_name c)) (order (sy_root y) bs (cf_name c) ps) (cf_areas c2)) cfs cfs2.
Proof.
  intros y ws x ps cfs cfs' cfs2 bs Nx Bl Ok_ F G. pose proof (Forall2_comp _ _ _ _ _ _ _ _ F G) as FG. eapply Forall2_impl2; [|exact FG].
  intros c c2 Ic [c' [Sc Fc]]. destruct (Bl c Ic) as [Bp Bv]. rewrite Forall_forall in Bv. destruct Sc as [S1 S2]. rewrite Bp in S1. rewrite <- S1.
  assert (map ar_pos (cf_areas c') = map ar_pos (cf_areas c2)) as ->.
  { clear - Fc. induction Fc as [|a a' l l' [P _] _ IH]; [reflexivity|]. cbn [map]. congruence. }
  apply Forall2_positions. intros a2 Ia2. destruct (Forall2_in_r _ _ _ _ _ _ Fc Ia2) as [a' [Ia' [P2 [V2 I2]]]]. destruct (S2 a' Ia') as [a [Ia [Pa Ta]]].
  split; [auto|]. rewrite P2, Pa. fold bs. unfold source. destruct (own (sy_root y) bs (cf_name c) (ar_pos a)) as [xe|].
  - destruct Ta as [Va Ra]. rewrite (V2 Va). auto.
  - cbn [taken] in Ta. subst a'. destruct (I2 (Bv a Ia)) as [J1 J2].
    assert (In (ar_pos a) ps) as Ip by (rewrite <- Bp; apply in_map; auto).
    pose proof (first_own_valid y bs ps (ar_pos a) Ip cfs cfs' Bl Ok_ F) as H. rewrite Nx. destruct (first_own (sy_root y) bs (map cf_name cfs) (ar_pos a)) as [xe|].
    + destruct H as [b [Fb Rb]]. rewrite (J1 b Fb). cbn [ar_valid ar_bb]. auto.
    + rewrite (J2 H). apply Bv. auto.
Qed.

Definition body_readable (y : system) (cs : list criterion) (ws : bool) (x : xnode) : Prop :=
  (forall c, In c (configurations x) -> exists o, config_says cs c o)
  /\ exists ps, elems_say (sy_root y) [] (associated x) ps /\ blocks_ok y ws x ps.

Lemma elems_say_fun : forall root xs l ps ps', elems_say root l xs ps -> elems_say root l xs ps' -> ps = ps'.
Proof.
  intros root xs. induction xs as [|x xs IH]; intros l ps ps' H H'; inversion H; subst; inversion H'; subst; auto.
  match goal with A : locate root _ = Some ?p, B : locate root _ = Some ?q |- _ => rewrite A in B; inversion B; subst end. eapply IH; eauto.
Qed.

Lemma domain_from_says : forall y cs ws aware id x at0, structure_ok y -> one_syncer y -> names_ok (sy_root y) -> crits_ok cs -> NoDup at0 -> (forall p, ~ In (p, id) at0) ->
  domain_shaped x -> keyed x -> aware_says x aware ->
  exists b d at_, domain_from_xml y cs ws aware id x at0 = Ok (b, (d, at_)) /\ domain_ok y d /\ linked d at0 at_ /\ dm_id d = id
    /\ (forall c, In c (dm_configs d) -> rule_fine cs c)
    /\ dm_name d = x_name x /\ dm_last d = None
    /\ (b = true <-> body_readable y cs ws x) /\ (b = true -> domain_says y cs ws None x d).
Proof.
  intros y cs ws aware id x at0 St O Nm C Na Fr Sh [Kn [Ke Kp]] Aw.
  destruct (domain_from_ok y cs ws aware id x at0 St O C Na Fr _ eq_refl) as [Q|[b [d [at_ [E [K [L [Id [Nd [Ad [Ld Rf]]]]]]]]]]].
  { exfalso. exact (domain_shaped_not_UB y cs ws aware id x at0 St O C Na Fr Sh Q). }
  exists b, d, at_. split; [auto|]. split; [auto|]. split; [auto|]. split; [auto|]. split; [auto|]. split; [auto|]. split; [auto|].
  destruct (shaped_parts x Sh) as [xc [xe [xs [Ex [Cc [Ce [Pc [Pe Fs]]]]]]]]. unfold domain_from_xml in E. rewrite Cc in E. cbn [obind] in E. rewrite <- Pc in E.
  destruct (configs_from_says cs C (configurations x) 0 Fs) as [[cfs [Ec Fc]]|[Ec [z [Iz Hz]]]]; rewrite Ec in E.
  2: { inversion E; subst b. split; [|discriminate]. split; [discriminate|]. intros [H _]. destruct (H z Iz) as [o Ho]. exfalso. exact (Hz o Ho). }
  destruct (configs_from_inv cs (configurations x) 0 cfs C Ec) as [Ci [Cn Ca]]. rewrite Forall_forall in Ca.
  set (d0 := Domain id (x_name x) aware [] cfs None [] (List.length cfs)) in *.
  assert (domain_ok y d0) as K0.
  { constructor; unfold d0; cbn [dm_elems dm_configs dm_last dm_syncers dm_fresh In]; try tauto; try discriminate.
    - split; [constructor|]. intros p q I. destruct I.
    - intros c Ic. destruct (Ca c Ic) as [Ea _]. split; rewrite Ea; constructor.
    - rewrite Ci. apply seq_NoDup.
    - intros c Ic. assert (In (cf_id c) (map cf_id cfs)) as Q by (apply in_map; auto). rewrite Ci in Q. apply in_seq in Q. lia.
    - intros s. split; [tauto|intros [p [I _]]; destruct I].
    - constructor. }
  assert (linked d0 at0 at0) as L0.
  { split; [|split; [auto|tauto]]. intros p. unfold d0. cbn [dm_id dm_elems In]. split; [|tauto]. intros Q. exact (Fr p Q). }
  rewrite Ce in E. cbn [obind] in E. rewrite <- Pe in E.
  destruct (elements_says y St O (associated x) d0 at0 at0 K0 L0) as [b1 [d1 [at1 [E1 [K1 [L1 [H1 [T1 F1]]]]]]]].
  { intros c Ic. destruct (Ca c Ic) as [Ea _]. split; rewrite Ea; constructor. }
  rewrite E1 in E. cbn [obind] in E. destruct b1.
  2: { inversion E; subst b. split; [|discriminate]. split; [discriminate|]. intros [_ [ps [H _]]]. exfalso. exact (F1 eq_refl ps H). }
  destruct (T1 eq_refl) as [Es Bl]. cbn [d0 dm_elems] in Es. rewrite settings_part in E.
  assert (map cf_name (dm_configs d1) = map x_name (configurations x)) as N1 by (rewrite <- Cn; destruct H1 as [_ [_ [_ [_ H1]]]]; exact (heads_names _ _ H1)).
  destruct (settings_says y St Nm (blocks ws x) d1 K1) as [b2 [d2 [E2 [K2 [S2 [H2 [Hb2 Hs2]]]]]]]; [rewrite N1; auto|rewrite N1; auto| |].
  { intros b' Ib. apply Kp. destruct ws; [exact Ib|destruct Ib]. }
  rewrite N1 in Hb2. rewrite E2 in E. cbn [obind fst snd] in E.
  assert (b2 = true <-> body_readable y cs ws x) as Hb.
  { rewrite Hb2. split.
    - intros H. split.
      + intros c Ic. destruct (Forall2_in_l _ _ _ _ _ _ Fc Ic) as [k [_ [_ Hk]]]. eauto.
      + exists (dm_elems d1). split; [exact Es|]. exact H.
    - intros [_ [ps [Hp Hs]]]. rewrite (elems_say_fun _ _ _ _ _ Es Hp). exact Hs. }
  destruct b2.
  - destruct (auto_validate_ok y d2 K2) as [d3 [E3 [K3 [S3 [H3 F3]]]]]. rewrite E3 in E. cbn [obind] in E. inversion E; subst b d3 at1. split; [exact Hb|]. intros _.
    destruct S2 as [_ [El2 _]]. destruct S3 as [_ [El3 _]].
    assert (dm_elems d = dm_elems d1) as Ed by congruence.
    split; [exact Nd|]. split; [rewrite Ad; exact Aw|]. split; [rewrite Ed; exact Es|].
    pose proof (filled_says y ws x (dm_elems d1) (dm_configs d1) (dm_configs d2) (dm_configs d) (eq_sym N1) Bl) as Fl. cbv zeta in Fl.
    specialize (Fl ltac:(intros c Ic; rewrite <- El2; apply (dk_configs _ _ K2 c Ic)) (Hs2 eq_refl) F3). rewrite <- Ed in Fl.
    assert (Forall2 same_head (dm_configs d1) (dm_configs d)) as Hd by (destruct H2 as [_ [_ [_ [_ H2]]]], H3 as [_ [_ [_ [_ H3]]]]; exact (same_heads_list_trans _ _ _ H2 H3)).
    assert (Forall2 same_head cfs (dm_configs d1)) as Hd1 by (destruct H1 as [_ [_ [_ [_ H1]]]]; exact H1).
    clear - Fc Fl Hd Hd1. revert cfs Fc Fl Hd Hd1. generalize (dm_configs d) (dm_configs d1) (dm_elems d). intros cfs2 cfs1 ps cfs Fc Fl Hd Hd1. revert cfs Fc cfs2 cfs1 Fl Hd Hd1.
    generalize (configurations x). intros xs0.
    induction xs0 as [|xc0 xs0 IH]; intros cfs Fc cfs2 cfs1 Fl Hd Hd1; inversion Fc as [|? c ? cfs' [Hn Hr] Fc']; subst; inversion Hd1 as [|? c1 ? cfs1' Hh1 Hd1']; subst;
      inversion Hd as [|? c2 ? cfs2' Hh2 Hd2']; subst; inversion Fl as [|? ? ? ? Fa Fl']; subst; constructor.
    + destruct Hh1 as [_ [N1 R1]], Hh2 as [_ [N2 R2]]. split; [congruence|]. split; [rewrite R2, R1; exact Hr|]. rewrite <- Hn, <- N1. exact Fa.
    + eapply IH; eauto.
  - inversion E; subst b. split; [exact Hb|discriminate].
Qed.

(** ** All the domains *)

Lemma readable_body : forall y cs ws x a, aware_says x a -> (readable y cs ws x <-> body_readable y cs ws x).
Proof. intros y cs ws x a H. unfold readable, body_readable. split; [tauto|]. intros Q. split; [eauto|exact Q]. Qed.

Definition imported (y : system) (cs : list criterion) (ws : bool) (x : xnode) (d : domain) : Prop := domain_says y cs ws None x d /\ dm_last d = None.

Lemma domains_from_says : forall y cs ws, structure_ok y -> one_syncer y -> names_ok (sy_root y) -> crits_ok cs -> forall xs s, fine y cs s ->
  Forall domain_shaped xs -> Forall keyed xs ->
  exists b s', domains_from_xml y cs ws xs s = Ok (b, s') /\ fine y cs s' /\ (b = true <-> Forall (readable y cs ws) xs)
    /\ (b = true -> exists l, ds_list s' = ds_list s ++ l /\ Forall2 (imported y cs ws) xs l).
Proof.
  intros y cs ws St O Nm C xs. induction xs as [|x xs IH]; intros s K Sh Ky; cbn [domains_from_xml].
  - exists true, s. split; [auto|]. split; [auto|]. split; [split; [constructor|auto]|]. intros _. exists []. rewrite app_nil_r. split; [auto|constructor].
  - inversion Sh as [|? ? Sx Sr]; subst. inversion Ky as [|? ? Kx Kr]; subst. rewrite (proj1 Sx), str_eqb_refl.
    destruct (aware_from_xml x) as [aware|] eqn:Ea.
    2: { exists false, s. split; [auto|]. split; [auto|]. split; [|discriminate]. split; [discriminate|]. intros H. inversion H as [|? ? [[a Ha] _] _]; subst. apply aware_from_says in Ha. congruence. }
    apply aware_from_says in Ea.
    destruct (domain_from_says y cs ws aware (ds_fresh s) x (ds_att s) St O Nm C (ds_att_once _ _ (proj1 K)) (fun p => fresh_unattached y s p (proj1 K)) Sx Kx Ea)
      as [b [d [at_ [E [Kd [L [Id [Rd [_ [Ld [Hb Hd]]]]]]]]]]]. rewrite E. cbn [obind].
    pose proof (appended_fine y cs s d at_ K Kd L Id Rd) as K'. rewrite <- (readable_body y cs ws x aware Ea) in Hb. destruct b.
    + destruct (IH _ K' Sr Kr) as [b2 [s2 [E2 [K2 [Hb2 Hl2]]]]]. rewrite E2. exists b2, s2. split; [auto|]. split; [auto|]. split.
      * rewrite Hb2. split; [intros H; constructor; [apply Hb; auto|auto]|intros H; inversion H; auto].
      * intros Q. destruct (Hl2 Q) as [l [El Fl]]. exists (d :: l). cbn [ds_list] in El. rewrite El, <- app_assoc. split; [auto|]. constructor; [split; [apply Hd; auto|exact Ld]|auto].
    + eexists false, _. split; [reflexivity|]. split; [exact K'|]. split; [|discriminate]. split; [discriminate|]. intros H. inversion H; subst. apply Hb. auto.
Qed.

Lemma import_all_says : forall y cs ws x s, structure_ok y -> one_syncer y -> names_ok (sy_root y) -> crits_ok cs -> domains_ok y s -> domains_shaped x -> Forall keyed (x_elems x) ->
  exists b s', import_all y cs ws x s = Ok (b, s') /\ fine y cs s' /\ (b = true <-> about_system y x /\ Forall (readable y cs ws) (x_elems x))
    /\ (b = true -> Forall2 (imported y cs ws) (x_elems x) (ds_list s')) /\ (b = false -> ds_list s' = []).
Proof.
  intros y cs ws x s St O Nm C K [Tx Sx] Ky. unfold import_all. destruct (no_domains_fine y cs s K) as [F0 E0].
  assert (domains_root y x = true <-> about_system y x) as R.
  { unfold domains_root, about_system. rewrite Tx, str_eqb_refl. cbn [andb]. destruct (e_name (sy_root y)) as [|c n].
    - split; [left; auto|auto].
    - rewrite str_eqb_eq. split; [auto|]. intros [Q|Q]; [discriminate|auto]. }
  destruct (domains_root y x).
  - destruct (domains_from_says y cs ws St O Nm C (x_elems x) _ F0 Sx Ky) as [b [s' [E [F [Hb Hl]]]]]. rewrite E. cbn [obind fst snd]. destruct b.
    + exists true, s'. split; [auto|]. split; [auto|]. split; [|split; [|discriminate]].
      * split; [intros _; split; [apply R; auto|apply Hb; auto]|auto].
      * intros _. destruct (Hl eq_refl) as [l [El Fl]]. rewrite El, E0. exact Fl.
    + destruct (no_domains_fine y cs s' (proj1 F)) as [F1 E1]. exists false, (ds_delete_all s'). split; [auto|]. split; [auto|]. split; [|split; [discriminate|auto]].
      split; [discriminate|]. intros [_ H]. apply Hb. auto.
  - exists false, (ds_delete_all s). split; [auto|]. split; [auto|]. split; [|split; [discriminate|auto]]. split; [discriminate|]. intros [H _]. apply R. auto.
Qed.

(** ** Validation *)

Lemma validated_says : forall y cs ws x main d d', domain_says y cs ws None x d ->
  dm_name d' = dm_name d -> dm_elems d' = dm_elems d -> dm_aware d' = dm_aware d -> (forall c, In c (dm_configs d') -> config_valid c) ->
  Forall2 (fun c c' => cf_name c' = cf_name c /\ cf_rule c' = cf_rule c
            /\ Forall2 (fun a a' => ar_pos a' = ar_pos a /\ (ar_valid a = true -> a' = a)
                /\ (ar_valid a = false -> forall i, owns (sy_root y) (ar_pos a) i -> abit (sy_root y) a' i = mbit main i)) (cf_areas c) (cf_areas c'))
              (dm_configs d) (dm_configs d') ->
  domain_says y cs ws (Some main) x d'.
Proof.
  intros y cs ws x main d d' [H1 [H2 [H3 H4]]] N E A V F. split; [congruence|]. split; [rewrite A; auto|]. split; [rewrite E; auto|]. rewrite E.
  clear H1 H2 H3 N E A. revert H4 F V. generalize (dm_configs d) (dm_configs d') (dm_elems d). intros cfs cfs' ps. generalize (configurations x). intros xs H F. revert xs H.
  induction F as [|c c' cfs cfs' [Fn [Fr Fa]] F IH]; intros xs H V; inversion H as [|xc ? xs' ? [Hn [Hr Ha]] H']; subst; constructor; [|apply IH; [auto|intros k Ik; apply V; right; auto]].
  split; [congruence|]. split; [rewrite Fr; auto|]. pose proof (V c' (or_introl eq_refl)) as Vc. unfold config_valid in Vc. clear -Ha Fa Vc. revert Ha Vc. generalize (order (sy_root y) (blocks ws x) (x_name xc) ps).
  induction Fa as [|a a' l l' [P [Q1 Q2]] Fa IH]; intros qs Ha Vc; inversion Ha as [|q ? qs' ? [Hp Hs] Ha']; subst; constructor; [|apply IH; [auto|inversion Vc; auto]].
  split; [congruence|]. inversion Vc as [|? ? Va _]; subst. destruct (source _ _ _ _ _) as [xe|].
  - destruct Hs as [Hv Hr]. rewrite (Q1 Hv). auto.
  - split; [auto|]. split; [auto|]. intros i Ho. pose proof (Q2 Hs i Ho) as Q. unfold abit in Q. rewrite P in Q. rewrite Q. f_equal. lia.
Qed.

Lemma validate_says : forall y cs ws main xs s s', structure_ok y -> domains_ok y s -> List.length main = footprint (sy_root y) ->
  Forall2 (imported y cs ws) xs (ds_list s) -> ds_validate y main s = Ok s' ->
  Forall2 (fun x d => domain_says y cs ws (Some main) x d /\ dm_last d = None) xs (ds_list s').
Proof.
  intros y cs ws main xs s s' St K L H E. destruct (ds_validate_ok y main s St K L) as [s2 [E2 [_ [V [_ F]]]]]. rewrite E in E2. inversion E2; subst s2.
  pose proof (Forall2_comp _ _ _ _ _ _ _ _ H F) as G.
  assert (forall l l', Forall2 (fun x d' => exists d, imported y cs ws x d /\ (dm_id d' = dm_id d /\ dm_name d' = dm_name d /\ dm_elems d' = dm_elems d /\ dm_last d' = dm_last d /\ dm_aware d' = dm_aware d
         /\ Forall2 (fun c c' => cf_id c' = cf_id c /\ cf_name c' = cf_name c /\ cf_rule c' = cf_rule c
            /\ Forall2 (fun a a' => ar_pos a' = ar_pos a /\ area_ok (sy_root y) a' /\ (ar_valid a = true -> a' = a)
                /\ (ar_valid a = false -> forall i, owns (sy_root y) (ar_pos a) i -> abit (sy_root y) a' i = mbit main i)) (cf_areas c) (cf_areas c'))
              (dm_configs d) (dm_configs d'))) l l' -> (forall d c, In d l' -> In c (dm_configs d) -> config_valid c) ->
    Forall2 (fun x d => domain_says y cs ws (Some main) x d /\ dm_last d = None) l l') as Go.
  { clear. intros l l' G. induction G as [|x d' l l' [d [[Hs Hl] [_ [H1 [H2 [H3 [H4 H5]]]]]]] G IH]; intros V; constructor; [|apply IH; intros d0 c0 I0; apply V; right; auto].
    split; [|congruence]. apply (validated_says y cs ws x main d d'); auto; [intros c Ic; apply (V d' c); [left; auto|auto]|].
    eapply Forall2_impl2; [|exact H5]. intros c c' _ [_ [A1 [A2 A3]]]. split; [auto|]. split; [auto|]. eapply Forall2_impl2; [|exact A3]. intros a a' _ [B1 [_ [B2 B3]]]. auto. }
  apply Go; auto.
Qed.
