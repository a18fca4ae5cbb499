(** Exported domains, imported again. *)
From Coq Require Import List Arith ZArith Bool Ascii String Lia Permutation Sorted.
From Verif Require Import Base BaseProofs TextModel CriterionModel CriterionSpec CriterionProofs RuleModel RuleSpec RuleProofs ParamTypeModel BlackboardModel BlackboardProofs BitModel ArrayModel
  TreeModel TreeSpec TreeProofs MemSpec MemProofs SyncModel DomainModel DomainSpec DomainProofs DomainInv DomainsInv MgrModel MgrSpec MgrProofs MgrFlow ValueSpec
  XmlModel XmlSpec XmlLeaf XmlFlat XmlProofs XmlRestore XmlMgr XmlProps DomXmlModel DomXmlSpec DomXmlInv.
Import ListNotations.
Local Open Scope nat_scope.

(** ** Rules *)

Lemma map_literal_some : forall m l v, In (l, v) m -> exists l', map_literal v m = Some l' /\ In (l', v) m.
Proof.
  induction m as [|[k w] m IH]; intros l v I; [destruct I|]. cbn [map_literal]. destruct (w =? v)%Z eqn:E.
  - apply Z.eqb_eq in E. subst. exists k. split; [auto|left; auto].
  - destruct I as [I|I]; [inversion I; subst; rewrite Z.eqb_refl in E; discriminate|]. destruct (IH l v I) as [l' [H1 H2]]. exists l'. split; [auto|right; auto].
Qed.

Lemma rules_from_elems : forall cs c, rules_from cs c = rules_from cs (filter is_elem c).
Proof.
  intros cs. induction c as [|k c IH]; [reflexivity|]. cbn [filter]. destruct (is_elem k) eqn:E; cbn [rules_from]; rewrite E; [rewrite IH; reflexivity|exact IH].
Qed.

Lemma rule_to_elem : forall cs r, is_elem (rule_to_xml cs r) = true.
Proof. intros cs [all l|i w v]; cbn [rule_to_xml]; [reflexivity|]. destruct (nth_error cs i); reflexivity. Qed.

Lemma filter_elems : forall A (f : A -> xnode) l, (forall a, is_elem (f a) = true) -> filter is_elem (map f l) = map f l.
Proof. intros A f l H. apply filter_all. intros x I. apply in_map_iff in I. destruct I as [a [<- _]]. apply H. Qed.

Lemma rule_back : forall cs, distinguishable cs -> forall r, writable cs r -> forall x, like (rule_to_xml cs r) x -> rule_from_xml cs x = Ok r.
Proof.
  intros cs D. fix IH 1. intros [all l|i w v] W x L. all: swap 1 2.
  - inversion W as [i0 k w0 v0 l Hk Hw Hl|]; subst. cbn [rule_to_xml] in L. rewrite Hk in L.
    destruct (map_literal_some _ _ _ Hl) as [l' [Hl' Il']]. unfold cty_literal in L. rewrite Hl' in L.
    pose proof (like_attr0 _ _ (lit "SelectionCriterion") L) as A1. pose proof (like_attr0 _ _ (lit "MatchesWhen") L) as A2.
    pose proof (like_attr0 _ _ (lit "Value") L) as A3.
    change (cr_name k = x_attr0 (lit "SelectionCriterion") x) in A1. change (verb_text w = x_attr0 (lit "MatchesWhen") x) in A2.
    change (l' = x_attr0 (lit "Value") x) in A3.
    inversion L as [t a a' c c' Ha Hc Ht]; subst x. rewrite rule_from_eq.
    change (str_eqb (lit "SelectionCriterionRule") (lit "CompoundRule")) with false.
    change (str_eqb (lit "SelectionCriterionRule") (lit "SelectionCriterionRule")) with true. cbv iota.
    destruct (D i k Hk) as [D1 [D2 [D3 D4]]].
    unfold crit_from_xml. rewrite <- A1, <- A2, <- A3. rewrite (crits_find_named cs (cr_name k) i k); auto.
    + rewrite Hk, set_matches_when_text by auto.
      rewrite (proj2 (cty_numerical_spec (cr_type k) l' v D3)); [reflexivity|]. apply literal_denotes; [auto|]. intros In_. apply (D4 In_ l' v Il').
    + split; [auto|]. split; [auto|]. intros j k' Lt Hj Q. unfold cr_path_name in Q. destruct (D j k' Hj) as [E1 _]. destruct (cr_name k') eqn:En; [congruence|].
      rewrite <- Q in *. assert (i = j) by (eapply D2; eauto). lia.
  - inversion W as [|all0 l0 F]; subst. cbn [rule_to_xml] in L. pose proof (like_attr0 _ _ (lit "Type") L) as A.
    change (comp_text all = x_attr0 (lit "Type") x) in A. inversion L as [t a a' c c' Ha Hc Ht]; subst x. rewrite rule_from_eq, str_eqb_refl, <- A.
    rewrite rules_from_elems. rewrite (filter_elems _ _ _ (rule_to_elem cs)) in Hc. clear Ht L A W.
    assert (rules_from cs (filter is_elem c') = Ok l) as ->.
    { assert (Forall (fun x => is_elem x = true) (filter is_elem c')) as El by (apply Forall_forall; intros x I; apply filter_In in I; tauto).
      clear - IH F Hc El. revert Hc El. generalize (filter is_elem c'). revert F. induction l as [|r l IHl]; intros F xs Hc El; cbn [map] in Hc.
      - inversion Hc; subst. reflexivity.
      - inversion Hc as [|? x ? xs' Hx Hr]; subst. inversion El as [|? ? Ex Er]; subst. inversion F as [|? ? Fx Fr]; subst.
        cbn [rules_from]. rewrite Ex. rewrite (IH r Fx x Hx). cbn [obind]. fold (rules_from cs). rewrite (IHl Fr xs' Hr Er). reflexivity. }
    cbn [omap obind]. destruct all; reflexivity.
Qed.

(** ** Configurations *)

Lemma name_attr_name : forall n x c t, x_name x = x_name (XElem t (name_attr n) c) -> x_name x = n.
Proof. intros n x c t ->. destruct n; reflexivity. Qed.

Lemma config_back : forall cs c id x, distinguishable cs -> rule_exportable cs c -> like (config_to_xml cs c) x ->
  config_from_xml cs id x = Ok (Config id (cf_name c) (cf_rule c) []).
Proof.
  intros cs c id x D E L. unfold config_from_xml. rewrite <- (like_type _ _ L). change (str_eqb (x_type (config_to_xml cs c)) (lit "Configuration")) with true. cbv iota.
  assert (x_name x = cf_name c) as Nm.
  { unfold x_name. rewrite <- (like_attr0 _ _ (lit "Name") L). unfold config_to_xml. destruct (cf_name c); reflexivity. }
  pose proof (like_elems _ _ L) as Fe. unfold config_to_xml, x_elems at 1 in Fe. cbn [x_content] in Fe. destruct (cf_rule c) as [r|] eqn:Er.
  - cbn [filter] in Fe. rewrite rule_to_elem in Fe. inversion Fe as [|? xr ? more Lr Fm Q]; subst. inversion Fm; subst.
    destruct (E r Er) as [Wr [all [l ->]]].
    assert (x_type xr = lit "CompoundRule") as T by (rewrite <- (like_type _ _ Lr); reflexivity). rewrite T, str_eqb_refl.
    rewrite (rule_back cs D _ Wr xr Lr). cbn [obind]. rewrite Nm. reflexivity.
  - inversion Fe as [Q|]; subst. rewrite Nm. reflexivity.
Qed.

Fixpoint fresh_configs (id : nat) (l : list config) : list config :=
  match l with [] => [] | c :: r => Config id (cf_name c) (cf_rule c) [] :: fresh_configs (S id) r end.

Lemma configs_back : forall cs l id xs, distinguishable cs -> Forall (rule_exportable cs) l -> Forall2 like (map (config_to_xml cs) l) xs ->
  configs_from_xml cs id xs = Ok (fresh_configs id l).
Proof.
  intros cs l. induction l as [|c l IH]; intros id xs D E F; cbn [map] in F; [inversion F; reflexivity|].
  inversion F as [|? x ? xs' Lx Fr]; subst. inversion E as [|? ? Ec Er]; subst. cbn [configs_from_xml fresh_configs].
  rewrite (config_back cs c id x D Ec Lx). cbn [obind]. rewrite (IH (S id) xs' D Er Fr). reflexivity.
Qed.

(** ** Elements *)

Definition blank (ps : list (list nat)) (c : config) : Prop := map ar_pos (cf_areas c) = ps /\ Forall (fun a => ar_valid a = false) (cf_areas c).

Lemma elements_back : forall y, structure_ok y -> one_syncer y -> names_ok (sy_root y) -> forall ps xs d at0 at_, domain_ok y d -> linked d at0 at_ ->
  Forall2 (fun p x => x_attr0 (lit "Path") x = path_in (sy_root y) p) ps xs -> (forall p, In p ps -> elem_at (sy_root y) p <> None) ->
  separate (dm_elems d ++ ps) -> (forall c, In c (dm_configs d) -> blank (dm_elems d) c) ->
  exists d' at', elements_from_xml y xs d at_ = Ok (true, (d', at')) /\ domain_ok y d' /\ linked d' at0 at' /\ same_heads d d'
    /\ dm_elems d' = dm_elems d ++ ps /\ (forall c, In c (dm_configs d') -> blank (dm_elems d') c).
Proof.
  intros y S O Nm ps. induction ps as [|p ps IH]; intros xs d at0 at_ K L F Ex Sp Bl; inversion F as [|? x ? xs' Hx Fr]; subst; cbn [elements_from_xml].
  - exists d, at_. rewrite app_nil_r. split; [auto|]. split; [auto|]. split; [auto|]. split; [apply same_heads_refl|auto].
  - rewrite Hx, (locate_path _ p Nm (Ex p (or_introl eq_refl))). destruct L as [L1 [L2 L3]].
    destruct (dm_add_ok y p None d at_ S O (Ex p (or_introl eq_refl)) ltac:(discriminate) K L1 L2) as [b [d' [at' [E [Hb [_ T]]]]]].
    assert (forall q, In q (dm_elems d) -> unrelated q p) as Un.
    { intros q Iq. destruct Sp as [Nd Sp]. apply Sp; [apply in_app_iff; auto|apply in_app_iff; right; left; auto|].
      intros ->. apply NoDup_app_inv in Nd. destruct Nd as [_ [_ Nd]]. apply (Nd p Iq). left. auto. }
    assert (b = true) as ->.
    { apply Hb. intros [q [Iq Ab]]. destruct (Un q Iq) as [U _]. apply U. exact Ab. }
    rewrite E. cbn [obind fst snd]. destruct (T eq_refl) as [K' [I' [L1' [L3' [L2' [El' [F' [N' [A' La']]]]]]]]].
    assert (forall q, In q (dm_elems d) -> not_below p q = true) as Nb.
    { intros q Iq. unfold not_below. apply negb_true_iff. destruct (descendant_of q p) eqn:Dq; auto. apply descendant_spec in Dq.
      destruct (Un q Iq) as [_ U]. exfalso. apply U. tauto. }
    rewrite (filter_all _ _ _ Nb) in El'.
    assert (same_heads d d') as H1.
    { repeat split; auto. eapply Forall2_impl2; [|exact F']. intros c c' _ [? [? [? _]]]. repeat split; auto. }
    destruct (IH xs' d' at0 at' K') as [d2 [at2 [E2 [K2 [Lk2 [H2 [El2 B2]]]]]]].
    + split; [auto|]. split; [auto|]. intros q id Hq. rewrite I' in Hq. rewrite L3' by auto. apply L3; auto.
    + exact Fr.
    + intros q Iq. apply Ex. right. auto.
    + rewrite El', <- app_assoc. exact Sp.
    + intros c' Ic'. destruct (Forall2_in_r _ _ _ _ _ _ F' Ic') as [c [Ic [_ [_ [_ [o [Ao [Po [_ [Vo _]]]]]]]]]].
      destruct (Bl c Ic) as [Bp Bv].
      assert (filter (fun a => negb (descendant_of (ar_pos a) p)) (cf_areas c) = cf_areas c) as Ff.
      { apply filter_all. intros a Ia. apply (Nb (ar_pos a)). rewrite <- Bp. apply in_map. auto. }
      rewrite Ff in Ao. split.
      * rewrite Ao, map_app, Bp, El'. cbn [map]. rewrite Po. reflexivity.
      * rewrite Ao. apply Forall_app. split; [auto|]. constructor; auto.
    + exists d2, at2. split; [auto|]. split; [auto|]. split; [auto|]. split; [eapply same_heads_trans; eauto|]. split; [|auto].
      rewrite El2, El', <- app_assoc. reflexivity.
Qed.

(** ** Settings *)

Lemma area_back : forall y f a, structure_ok y -> area_ok (sy_root y) a -> recorded_restorable y f a ->
  exists x, area_to_xml y f a = Ok x
    /\ forall x', like x x' -> x_attr0 (lit "Path") x' = path_in (sy_root y) (ar_pos a)
         /\ forall a0, area_ok (sy_root y) a0 -> ar_pos a0 = ar_pos a ->
              exists a', area_from_xml y x' a0 = Ok (true, a') /\ area_ok (sy_root y) a' /\ same_record y a a'.
Proof.
  intros y f a St Oa Re. destruct St as [W Fa]. pose proof Oa as [e [E Le]]. set (p := ar_pos a) in *. set (o := offset (sy_root y) p) in *.
  pose proof (bare_root (sy_root y) p e W E) as Ba. pose proof (area_room (sy_root y) a W Oa) as Rm.
  assert (forall r k, In (r, k) (params e) -> exists s, leaf_get k f [] (offset (sy_root y) (p ++ r)) o (ar_bb a) = Ok s
    /\ forall raw', raw' = false \/ raw' = f_raw f -> (spaced k = true -> raw' = f_raw f) -> brings k raw' s (offset (sy_root y) (p ++ r) - o) (ar_bb a)) as Bk.
  { intros r k I. destruct (param_of_params (sy_root y) W p e E r k I) as [c [Pc <-]].
    pose proof (param_kind_wf _ _ c W Pc) as Wk. destruct (Rm r c Pc) as [Lo Fit]. fold p o in Lo, Fit.
    rewrite (storage_size_kind c (proj2 Pc)) in Fit.
    destruct (leaf_back (e_kind c) f false (offset (sy_root y) (p ++ r) - o) (ar_bb a) Wk Fit (Re r c Pc)) as [s [G _]].
    exists s. split; [rewrite leaf_get_base; auto|]. intros raw' Hr Sp.
    destruct (leaf_back (e_kind c) f raw' (offset (sy_root y) (p ++ r) - o) (ar_bb a) Wk Fit) as [s' [G' Br]].
    { apply (restorable_space _ false); [exact Hr|apply (Re r c Pc)]. }
    rewrite G in G'. inversion G'; subst s'. destruct (spaced (e_kind c)); [rewrite Sp|]; auto. }
  unfold area_to_xml. fold p. rewrite E. fold o. destruct (export_shows e Ba o o f (ar_bb a)) as [x [Ex Sx]].
  { intros r k I. destruct (Bk r k I) as [s [G _]]. exists s. unfold o. rewrite (item_off (sy_root y) p e E). auto. }
  rewrite Ex. cbn [obind]. eexists. split; [reflexivity|]. intros x' Lk. split; [rewrite <- (like_attr0 _ _ (lit "Path") Lk); reflexivity|].
  intros a0 O0 P0. pose proof (like_elems _ _ Lk) as Fe. unfold x_elems at 1 in Fe. cbn [x_content filter] in Fe. rewrite (proj1 Sx) in Fe.
  destruct (x_elems x') as [|xc more] eqn:Exs; [inversion Fe|]. inversion Fe as [|? ? ? ? Lc Fm]; subst. inversion Fm; subst. clear Fe Fm.
  apply (shows_like _ _ _ x xc Lc) in Sx.
  assert (shows e f (fun r k s => forall raw', (raw' = false \/ raw' = f_raw f) -> (spaced k = true -> raw' = f_raw f) ->
      brings k raw' s (offset (sy_root y) (p ++ r) - o) (ar_bb a)) xc) as Sb.
  { apply (shows_impl _ _ _ _ xc Sx). intros r k s I G. destruct (Bk r k I) as [s' [G' Br]]. unfold o in G. rewrite (item_off (sy_root y) p e E) in G.
    fold o in G. rewrite G' in G. inversion G; subst. auto. }
  pose proof (area_room (sy_root y) a0 W O0) as Rm0. rewrite P0 in Rm0. fold p o in Rm0.
  destruct (restore (sy_root y) W Fa p e E xc o (le_n _) false false f (fun r => offset (sy_root y) (p ++ r) - o) (ar_bb a) Sb
    (ar_bb a0) Rm0) as [raw' [bb' [Im [Lb [Fr Get]]]]].
  unfold area_from_xml. rewrite P0. fold p. rewrite E, Exs. fold o in Im |- *.
  destruct Sx as [_ [T [Nm _]]]. unfold type_matches. rewrite T, Nm, !str_eqb_refl. cbn [orb andb]. rewrite Im. cbn [obind].
  eexists. split; [reflexivity|]. split.
  - exists e. cbn [ar_pos ar_bb]. split; [auto|]. rewrite Lb. destruct O0 as [e0 [E0 L0]]. rewrite P0 in E0. congruence.
  - split; [reflexivity|]. cbn [ar_valid ar_bb]. split; [apply orb_true_r|]. intros r c Pc g rest. fold p o. destruct (Get r c Pc) as [G _]. apply G.
Qed.

Lemma path_inj : forall root p q, names_ok root -> elem_at root p <> None -> elem_at root q <> None -> path_in root p = path_in root q -> p = q.
Proof. intros root p q N Ep Eq H. pose proof (locate_path root p N Ep) as A. pose proof (locate_path root q N Eq) as B. rewrite H in A. congruence. Qed.

(** One entry of the settings for each area, in the order of the configuration. *)
Definition entry (y : system) (a : area) (x : xnode) : Prop :=
  x_attr0 (lit "Path") x = path_in (sy_root y) (ar_pos a)
  /\ forall a0, area_ok (sy_root y) a0 -> ar_pos a0 = ar_pos a ->
       exists a', area_from_xml y x a0 = Ok (true, a') /\ area_ok (sy_root y) a' /\ same_record y a a'.

Lemma areas_back : forall y, names_ok (sy_root y) -> forall todo xs done placed rest, Forall2 (entry y) todo xs ->
  Forall2 (same_record y) done placed -> Permutation (map ar_pos rest) (map ar_pos todo) -> NoDup (map ar_pos (done ++ todo)) ->
  Forall (area_ok (sy_root y)) (placed ++ rest) ->
  exists l, areas_from_xml y xs placed rest = Ok (true, l) /\ Forall2 (same_record y) (done ++ todo) l.
Proof.
  intros y Nm todo. induction todo as [|a todo IH]; intros xs done placed rest F Dn Pm Nd Ok_; inversion F as [|? x ? xs' [Px Ex] Fr]; subst; cbn [areas_from_xml].
  - cbn [map] in Pm. apply Permutation_sym, Permutation_nil in Pm. apply map_eq_nil in Pm. subst. exists (placed ++ []). rewrite !app_nil_r. auto.
  - rewrite Px. rewrite Forall_forall in Ok_.
    assert (forall k, In k (placed ++ rest) -> area_path y k = path_in (sy_root y) (ar_pos a) -> ar_pos k = ar_pos a) as Inj.
    { intros k Ik Q. unfold area_path in Q.
      assert (exists b, In b (placed ++ rest) /\ ar_pos b = ar_pos a) as [b [Ib Pb]].
      { assert (In (ar_pos a) (map ar_pos rest)) as I by (eapply Permutation_in; [apply Permutation_sym; exact Pm|left; auto]).
        apply in_map_iff in I. destruct I as [b [Pb Ib]]. exists b. split; [apply in_app_iff; auto|auto]. }
      destruct (Ok_ k Ik) as [e1 [E1 _]]. destruct (Ok_ b Ib) as [e2 [E2 _]]. rewrite Pb in E2. apply (path_inj (sy_root y)); auto; congruence. }
    assert (map ar_pos placed = map ar_pos done) as Pd by (apply Forall2_map_eq; eapply Forall2_impl2; [|exact Dn]; intros ? ? _ [? _]; auto).
    assert (~ In (ar_pos a) (map ar_pos placed)) as Na.
    { rewrite Pd, map_app in *. apply NoDup_app_inv in Nd. destruct Nd as [_ [_ Nd]]. intros I. apply (Nd _ I). left. auto. }
    assert (find_area_path y (path_in (sy_root y) (ar_pos a)) placed = None) as Fp.
    { apply find_area_path_None. intros k Ik Q. apply Na. rewrite <- (Inj k ltac:(apply in_app_iff; auto) Q). apply in_map. auto. }
    rewrite find_area_path_app, Fp. destruct (find_area_path y (path_in (sy_root y) (ar_pos a)) rest) as [b|] eqn:Fb.
    2: { exfalso. assert (In (ar_pos a) (map ar_pos rest)) as I by (eapply Permutation_in; [apply Permutation_sym; exact Pm|left; auto]).
         apply in_map_iff in I. destruct I as [b [Pb Ib]]. pose proof (proj1 (find_area_path_None _ _ _) Fb b Ib) as Q. apply Q. unfold area_path. congruence. }
    destruct (find_area_path_split _ _ _ _ Fb) as [l1 [l2 [El [Pb [_ Dp]]]]].
    assert (In b (placed ++ rest)) as Ib by (rewrite El; apply in_app_iff; right; apply in_elt).
    destruct (Ex b (Ok_ b Ib) (Inj b Ib Pb)) as [a' [Ea [Oa Sa]]]. rewrite Ea. cbn [obind fst snd]. unfold splice. rewrite Fp, Dp.
    destruct (IH xs' (done ++ [a]) (placed ++ [a']) (l1 ++ l2) Fr) as [l [E2 F2]].
    + apply Forall2_app; [auto|]. constructor; [auto|constructor].
    + rewrite El in Pm. rewrite map_app in Pm. cbn [map] in Pm. rewrite (Inj b Ib Pb) in Pm. apply Permutation_sym in Pm. rewrite map_app.
      apply Permutation_sym. eapply Permutation_cons_app_inv. exact Pm.
    + rewrite <- app_assoc. exact Nd.
    + apply Forall_forall. intros k Ik. rewrite !in_app_iff in Ik. cbn [In] in Ik. destruct Ik as [[Ik|[<-|[]]]|Ik]; auto.
      * apply Ok_. apply in_app_iff. auto.
      * apply Ok_. apply in_app_iff. right. rewrite El. apply in_app_iff. cbn [In]. tauto.
    + rewrite E2. exists l. split; [auto|]. rewrite <- app_assoc in F2. exact F2.
Qed.

Lemma dm_find_at : forall n d l1 c l2, dm_configs d = l1 ++ c :: l2 -> cf_path_name c = n -> (forall k, In k l1 -> cf_path_name k <> n) -> dm_find n d = Some c.
Proof.
  intros n d l1 c l2 E P F. unfold dm_find. rewrite E. clear E. induction l1 as [|k l1 IH]; cbn [app find].
  - rewrite P, str_eqb_refl. reflexivity.
  - destruct (str_eqb (cf_path_name k) n) eqn:Q; [apply str_eqb_eq in Q; exfalso; exact (F k (or_introl eq_refl) Q)|]. apply IH. intros j I. apply F. right. auto.
Qed.

Lemma path_name_named : forall c, cf_name c <> [] -> cf_path_name c = cf_name c.
Proof. intros c H. unfold cf_path_name. destruct (cf_name c); congruence. Qed.

Definition config_entry (y : system) (c : config) (x : xnode) : Prop := x_name x = cf_name c /\ Forall2 (entry y) (cf_areas c) (x_elems x).
Definition same_tag (c c0 : config) : Prop := cf_name c0 = cf_name c /\ cf_rule c0 = cf_rule c.

Lemma settings_back : forall y, structure_ok y -> names_ok (sy_root y) -> forall todo xs done d l1 l2, domain_ok y d -> Forall2 (config_entry y) todo xs ->
  dm_configs d = l1 ++ l2 -> Forall2 (same_config y) done l1 -> Forall2 same_tag todo l2 ->
  NoDup (map cf_name (done ++ todo)) -> ~ In [] (map cf_name (done ++ todo)) -> (forall c, In c todo -> config_ok (sy_root y) (dm_elems d) c) ->
  exists d', settings_from_xml y xs d = Ok (true, d') /\ domain_ok y d' /\ same_shape d d' /\ same_heads d d'
    /\ Forall2 (same_config y) (done ++ todo) (dm_configs d').
Proof.
  intros y St Nm todo. induction todo as [|c todo IH]; intros xs done d l1 l2 K F Ed Fd Ft Nd Ne Kc; inversion F as [|? x ? xs' [Nx Ex] Fr]; subst; cbn [settings_from_xml].
  - inversion Ft; subst. exists d. split; [auto|]. split; [auto|]. split; [repeat split|]. split; [apply same_heads_refl|]. rewrite Ed, !app_nil_r. exact Fd.
  - inversion Ft as [|? c0 ? l2' [Tn Tr] Ft']; subst.
    change (fun c => do w <- areas_from_xml y (x_elems x) [] (cf_areas c); Ok (fst w, with_areas c (snd w))) with (from_settings y x).
    assert (cf_name c <> []) as Nc.
    { intros Q. apply Ne. rewrite <- Q. apply in_map. apply in_elt. }
    assert (cf_path_name c0 = cf_name c) as P0 by (rewrite path_name_named; congruence).
    assert (forall k, In k l1 -> cf_path_name k <> cf_name c) as Nk.
    { intros k Ik Q. destruct (Forall2_in_r _ _ _ _ _ _ Fd Ik) as [k0 [Ik0 [Hn _]]].
      rewrite path_name_named in Q.
      - rewrite map_app in Nd. apply NoDup_app_inv in Nd. destruct Nd as [_ [_ Nd]]. apply (Nd (cf_name c)); [|left; auto].
        rewrite <- Q, Hn. apply in_map. auto.
      - rewrite Hn. intros Q'. apply Ne. rewrite <- Q'. apply in_map. apply in_app_iff. auto. }
    assert (In c0 (dm_configs d)) as I0 by (rewrite Ed; apply in_elt).
    destruct (dk_configs _ _ K c0 I0) as [Pm0 Fo0]. destruct (Kc c (or_introl eq_refl)) as [Pm Fo].
    destruct (areas_back y Nm (cf_areas c) (x_elems x) [] [] (cf_areas c0) Ex (Forall2_nil _)) as [l [El Fl]].
    { rewrite Pm0. apply Permutation_sym. exact Pm. }
    { cbn [app]. eapply Permutation_NoDup; [apply Permutation_sym; exact Pm|]. apply (dk_separate _ _ K). }
    { exact Fo0. }
    cbn [app] in Fl. destruct (from_settings_ok y x (dm_elems d) c0 St (conj Pm0 Fo0)) as [b [c' [Ef [Kc' [Ic' Hc']]]]].
    assert (b = true /\ c' = with_areas c0 l) as [-> ->].
    { unfold from_settings in Ef. rewrite El in Ef. cbn [obind fst snd] in Ef. inversion Ef. auto. }
    assert (dm_on_config (x_name x) (from_settings y x) d = Ok (true, with_configs d (l1 ++ with_areas c0 l :: l2'))) as Eo.
    { unfold dm_on_config. rewrite Nx, (dm_find_at (cf_name c) d l1 c0 l2' Ed P0 Nk). rewrite Ed, upd_config_split by auto. rewrite Ef. reflexivity. }
    rewrite Eo. cbn [obind fst snd]. set (d1 := with_configs d (l1 ++ with_areas c0 l :: l2')).
    assert (domain_ok y d1) as K1.
    { apply (replace_config_ok y d l1 c0 l2' (with_areas c0 l)); auto; repeat split. }
    assert (same_heads d d1) as H1.
    { repeat split; auto. unfold d1. cbn [with_configs dm_configs]. rewrite Ed. apply Forall2_app; [apply same_heads_list_refl|]. constructor; [exact Hc'|apply same_heads_list_refl]. }
    destruct (IH xs' (done ++ [c]) d1 (l1 ++ [with_areas c0 l]) l2' K1 Fr) as [d' [E' [K' [S' [H' F']]]]].
    + unfold d1. cbn [with_configs dm_configs]. rewrite <- app_assoc. reflexivity.
    + apply Forall2_app; [auto|]. constructor; [|constructor]. split; [exact Tn|]. split; [exact Tr|exact Fl].
    + exact Ft'.
    + rewrite <- app_assoc. exact Nd.
    + rewrite <- app_assoc. exact Ne.
    + intros k Ik. apply Kc. right. auto.
    + exists d'. split; [exact E'|]. split; [auto|]. split; [exact S'|]. split; [eapply same_heads_trans; eauto|]. rewrite <- app_assoc in F'. exact F'.
Qed.

(** ** Domains *)

Lemma export_list_ok : forall A (f : A -> outcome xnode) (R : A -> xnode -> Prop) l,
  (forall a, In a l -> exists x, f a = Ok x /\ is_elem x = true /\ forall x', like x x' -> R a x') ->
  exists xs, omap_list f l = Ok xs /\ filter is_elem xs = xs /\ forall xs', Forall2 like xs xs' -> Forall2 R l xs'.
Proof.
  intros A f R l H. destruct (omap_list_ok _ _ f (fun a x => is_elem x = true /\ forall x', like x x' -> R a x') l) as [xs [E F]].
  { intros a Ia. destruct (H a Ia) as [x Hx]. exists x. exact Hx. }
  exists xs. split; [exact E|]. split.
  - apply filter_all. intros x I. destruct (Forall2_in_r _ _ _ _ _ _ F I) as [a [_ [Hx _]]]. exact Hx.
  - intros xs' L. pose proof (Forall2_comp _ _ _ _ _ _ _ _ F L) as C. eapply Forall2_impl2; [|exact C]. intros a x' _ [x [[_ Hx] Lx]]. auto.
Qed.

Lemma settings_export : forall y f c, structure_ok y -> Forall (area_ok (sy_root y)) (cf_areas c) -> Forall (recorded_restorable y f) (cf_areas c) ->
  exists x, settings_to_xml y f c = Ok x /\ is_elem x = true /\ forall x', like x x' -> config_entry y c x'.
Proof.
  intros y f c St Fo Fr. rewrite Forall_forall in Fo, Fr. unfold settings_to_xml.
  destruct (export_list_ok _ (area_to_xml y f) (entry y) (cf_areas c)) as [xs [E [El H]]].
  { intros a Ia. destruct (area_back y f a St (Fo a Ia) (Fr a Ia)) as [x [Ex Hx]]. exists x. split; [auto|]. split; [|exact Hx].
    unfold area_to_xml in Ex. destruct (elem_at _ _); [|discriminate]. destruct (export_settings _ _ _ _ _); try discriminate. cbn [obind] in Ex. inversion Ex. reflexivity. }
  rewrite E. cbn [obind]. eexists. split; [reflexivity|]. split; [reflexivity|]. intros x' L. split.
  - unfold x_name. rewrite <- (like_attr0 _ _ (lit "Name") L). reflexivity.
  - apply H. pose proof (like_elems _ _ L) as F. unfold x_elems at 1 in F. cbn [x_content] in F. rewrite El in F. exact F.
Qed.

(** The validation between configurations has nothing to do when all the settings are valid, or none. *)
Lemma auto_validate_idle : forall y d, domain_ok y d ->
  (forall c, In c (dm_configs d) -> config_valid c) \/ (forall c, In c (dm_configs d) -> Forall (fun a => ar_valid a = false) (cf_areas c)) ->
  exists d', dm_auto_validate d = Ok d' /\ domain_ok y d' /\ same_shape d d' /\ same_heads d d' /\ dm_configs d' = dm_configs d.
Proof.
  intros y d K H. destruct (auto_validate_ok y d K) as [d' [E [K' [S [Hh F]]]]]. exists d'. split; [auto|]. split; [auto|]. split; [auto|]. split; [auto|].
  assert (Forall2 (fun c c' => c' = c) (dm_configs d) (dm_configs d')) as Q.
  { destruct Hh as [_ [_ [_ [_ Hh]]]].
    assert (forall c c', In c (dm_configs d) -> Forall2 (filled (dm_configs d)) (cf_areas c) (cf_areas c') -> cf_areas c' = cf_areas c) as Ar.
    { intros c c' Ic Fc. assert (Forall2 (fun a a' => a' = a) (cf_areas c) (cf_areas c')) as Fa.
      { eapply Forall2_impl2; [|exact Fc]. intros a a' Ia [_ [Fv Fi]]. destruct H as [H|H].
        - apply Fv. specialize (H c Ic). unfold config_valid in H. rewrite Forall_forall in H. auto.
        - apply Fi; [specialize (H c Ic); rewrite Forall_forall in H; auto|]. intros k b Ik Ib _. specialize (H k Ik). rewrite Forall_forall in H. auto. }
      clear Fc. induction Fa; [auto|congruence]. }
    revert Hh F. generalize (dm_configs d') as m. revert Ar. generalize (filled (dm_configs d)) as R. clear. intros R Ar m. revert Ar. generalize (dm_configs d) as l.
    intros l Ar Hh F. revert Ar F. induction Hh as [|c c' l m [H1 [H2 H3]] Hh IH]; intros Ar F; constructor.
    - inversion F; subst. pose proof (Ar c c' (or_introl eq_refl) ltac:(assumption)). destruct c, c'. cbn in *. congruence.
    - inversion F; subst. apply IH; [|assumption]. intros k k' Ik. apply Ar. right. auto. }
  clear - Q. induction Q; [auto|congruence].
Qed.

Lemma fresh_tags : forall l id, Forall2 same_tag l (fresh_configs id l) /\ map cf_id (fresh_configs id l) = seq id (List.length l)
  /\ Forall (fun c => cf_areas c = []) (fresh_configs id l) /\ List.length (fresh_configs id l) = List.length l.
Proof.
  induction l as [|c l IH]; intros id; cbn [fresh_configs map List.length seq]; [repeat split; constructor|].
  destruct (IH (S id)) as [A [B [C D]]]. rewrite B, D. repeat split; auto. constructor; auto. repeat split.
Qed.

Lemma same_tag_head : forall l m n, Forall2 same_tag l m -> Forall2 same_head m n -> Forall2 same_tag l n.
Proof.
  intros l m n A B. pose proof (Forall2_comp _ _ _ _ _ _ _ _ A B) as C. eapply Forall2_impl2; [|exact C]. intros a c _ [b [[? ?] [_ [? ?]]]]. split; congruence.
Qed.

(** The imported domain [d'] for the exported [d]: with the settings, or blank. *)
Definition brought (y : system) (full : bool) (d d' : domain) : Prop :=
  dm_name d' = dm_name d /\ dm_aware d' = dm_aware d /\ dm_elems d' = dm_elems d /\ dm_last d' = None
  /\ Forall2 (fun c c' => same_tag c c' /\ if full then Forall2 (same_record y) (cf_areas c) (cf_areas c') else blank (dm_elems d) c')
       (dm_configs d) (dm_configs d').

Lemma like_find : forall t l l', Forall2 like l l' ->
  match find (fun c => str_eqb (x_type c) t) l, find (fun c => str_eqb (x_type c) t) l' with
  | Some x, Some x' => like x x' | None, None => True | _, _ => False end.
Proof.
  intros t l l' F. induction F as [|x x' l l' L F IH]; cbn [find]; [exact I|]. rewrite <- (like_type _ _ L). destruct (str_eqb (x_type x) t); auto.
Qed.

Lemma domain_back : forall y cs f ws d, structure_ok y -> one_syncer y -> names_ok (sy_root y) -> distinguishable cs -> domain_ok y d -> config_named d ->
  (forall c, In c (dm_configs d) -> rule_exportable cs c) ->
  (ws = true -> forall c, In c (dm_configs d) -> Forall (recorded_restorable y f) (cf_areas c)) ->
  exists x, domain_to_xml y cs f ws d = Ok x /\ is_elem x = true
    /\ forall x', like x x' -> x_type x' = lit "ConfigurableDomain" /\ aware_from_xml x' = Some (dm_aware d) /\ x_name x' = dm_name d
       /\ forall wi id at0, NoDup at0 -> (forall p, ~ In (p, id) at0) ->
            exists d' at', domain_from_xml y cs wi (dm_aware d) id x' at0 = Ok (true, (d', at')) /\ domain_ok y d' /\ linked d' at0 at' /\ dm_id d' = id
              /\ brought y (ws && wi) d d'.
Proof.
  intros y cs f ws d St O Nm D K [Nd Ne] Re Va.
  assert (exists ss, (if ws then do l <- omap_list (settings_to_xml y f) (dm_configs d); Ok [XElem (lit "Settings") [] l] else Ok []) = Ok ss
    /\ filter is_elem ss = ss
    /\ forall xc xe ss', Forall2 like ss ss' -> x_type xc = lit "Configurations" -> x_type xe = lit "ConfigurableElements" ->
         match find (fun c => str_eqb (x_type c) (lit "Settings")) (xc :: xe :: ss') with
         | Some xs => ws = true /\ Forall2 (config_entry y) (dm_configs d) (x_elems xs)
         | None => ws = false
         end) as [ss [Es [Els Hs]]].
  { destruct ws.
    - destruct (export_list_ok _ (settings_to_xml y f) (config_entry y) (dm_configs d)) as [xs [E [El H]]].
      { intros c Ic. apply settings_export; auto. destruct (dk_configs _ _ K c Ic) as [_ Fo]. exact Fo. }
      rewrite E. cbn [obind]. eexists. split; [reflexivity|]. split; [reflexivity|]. intros xc xe ss' F Tc Te.
      inversion F as [|? s' ? ? Ls Fn]; subst. inversion Fn; subst. cbn [find]. rewrite Tc, Te, <- (like_type _ _ Ls).
      change (str_eqb (lit "Configurations") (lit "Settings")) with false. change (str_eqb (lit "ConfigurableElements") (lit "Settings")) with false. cbv iota.
      cbn [x_type]. rewrite str_eqb_refl. split; [auto|]. apply H. pose proof (like_elems _ _ Ls) as Fl. unfold x_elems at 1 in Fl. cbn [x_content] in Fl. rewrite El in Fl. exact Fl.
    - eexists. split; [reflexivity|]. split; [reflexivity|]. intros xc xe ss' F Tc Te. inversion F; subst. cbn [find]. rewrite Tc, Te. reflexivity. }
  unfold domain_to_xml. rewrite Es. cbn [obind]. eexists. split; [reflexivity|]. split; [reflexivity|]. intros x' L.
  split; [rewrite <- (like_type _ _ L); reflexivity|].
  split. { unfold aware_from_xml. rewrite <- (like_attr _ _ (lit "SequenceAware") L). cbn [x_attr]. destruct (dm_name d), (dm_aware d); reflexivity. }
  split. { unfold x_name. rewrite <- (like_attr0 _ _ (lit "Name") L). unfold x_attr0. cbn [x_attr]. destruct (dm_name d); reflexivity. }
  intros wi id at0 Na Fr.
  assert (x_name x' = dm_name d) as Nx by (unfold x_name; rewrite <- (like_attr0 _ _ (lit "Name") L); unfold x_attr0; cbn [x_attr]; destruct (dm_name d); reflexivity).
  pose proof (like_elems _ _ L) as Fe. unfold x_elems at 1 in Fe. cbn [x_content app filter is_elem] in Fe. rewrite Els in Fe.
  destruct (x_elems x') as [|xc l1] eqn:Ex; [inversion Fe|]. inversion Fe as [|? ? ? ? Lc Fe1]; subst.
  destruct l1 as [|xe ss']; [inversion Fe1|]. inversion Fe1 as [|? ? ? ? Le Fe2]; subst.
  assert (x_type xc = lit "Configurations") as Tc by (rewrite <- (like_type _ _ Lc); reflexivity).
  assert (x_type xe = lit "ConfigurableElements") as Te by (rewrite <- (like_type _ _ Le); reflexivity).
  specialize (Hs xc xe ss' Fe2 Tc Te).
  unfold domain_from_xml, child_or_last. rewrite Ex. cbn [find]. rewrite Tc, Te.
  change (str_eqb (lit "Configurations") (lit "Configurations")) with true. change (str_eqb (lit "Configurations") (lit "ConfigurableElements")) with false.
  change (str_eqb (lit "ConfigurableElements") (lit "ConfigurableElements")) with true. cbn [obind].
  assert (Forall2 like (map (config_to_xml cs) (dm_configs d)) (x_elems xc)) as Fc.
  { pose proof (like_elems _ _ Lc) as Q. unfold x_elems at 1 in Q. cbn [x_content] in Q. rewrite filter_elems in Q by reflexivity. exact Q. }
  rewrite (configs_back cs (dm_configs d) 0 (x_elems xc) D ltac:(apply Forall_forall; auto) Fc).
  destruct (fresh_tags (dm_configs d) 0) as [Ft [Fi [Fa Fl]]]. rewrite Forall_forall in Fa.
  set (d0 := Domain id (x_name x') (dm_aware d) [] (fresh_configs 0 (dm_configs d)) None [] (List.length (fresh_configs 0 (dm_configs d)))).
  assert (domain_ok y d0) as K0.
  { constructor; unfold d0; cbn [dm_elems dm_configs dm_last dm_syncers dm_fresh In]; try tauto; try discriminate.
    - split; [constructor|]. intros p q I. destruct I.
    - intros c Ic. split; rewrite (Fa c Ic); constructor.
    - rewrite Fi. apply seq_NoDup.
    - intros c Ic. assert (In (cf_id c) (map cf_id (fresh_configs 0 (dm_configs d)))) as Q by (apply in_map; auto). rewrite Fi in Q. apply in_seq in Q. lia.
    - intros s. split; [tauto|intros [p [I _]]; destruct I].
    - constructor. }
  assert (linked d0 at0 at0) as L0.
  { split; [|split; [auto|tauto]]. intros p. unfold d0. cbn [dm_id dm_elems In]. split; [|tauto]. intros Q. exact (Fr p Q). }
  assert (Forall2 (fun p x => x_attr0 (lit "Path") x = path_in (sy_root y) p) (dm_elems d) (x_elems xe)) as Fp.
  { pose proof (like_elems _ _ Le) as Q. unfold x_elems at 1 in Q. cbn [x_content] in Q. rewrite filter_elems in Q by reflexivity.
    clear - Q. revert Q. generalize (x_elems xe). generalize (dm_elems d). intros ps. induction ps as [|p ps IH]; intros l Q; cbn [map] in Q; inversion Q as [|? x ? l' Lx Fx]; subst; constructor; auto.
    rewrite <- (like_attr0 _ _ (lit "Path") Lx). reflexivity. }
  destruct (elements_back y St O Nm (dm_elems d) (x_elems xe) d0 at0 at0 K0 L0 Fp) as [d1 [at1 [E1 [K1 [L1 [H1 [El1 B1]]]]]]].
  { intros p Ip. destruct (dk_exist _ _ K p Ip) as [e He]. congruence. }
  { apply (dk_separate _ _ K). }
  { intros c Ic. split; rewrite (Fa c Ic); constructor. }
  cbn [d0 dm_elems app] in El1. rewrite E1. cbn [obind].
  assert (Forall2 same_tag (dm_configs d) (dm_configs d1)) as T1 by (eapply same_tag_head; [exact Ft|]; destruct H1 as [_ [_ [_ [_ H1]]]]; exact H1).
  assert (exists d2, (if wi then match (if str_eqb (lit "Configurations") (lit "Settings") then Some xc
                  else if str_eqb (lit "ConfigurableElements") (lit "Settings") then Some xe
                  else find (fun c => str_eqb (x_type c) (lit "Settings")) ss') with
              | Some xs => settings_from_xml y (x_elems xs) d1
              | None => Ok (true, d1)
              end else Ok (true, d1)) = Ok (true, d2) /\ domain_ok y d2 /\ same_shape d1 d2 /\ same_heads d1 d2
          /\ Forall2 (fun c c' => same_tag c c' /\ if ws && wi then Forall2 (same_record y) (cf_areas c) (cf_areas c') else blank (dm_elems d) c') (dm_configs d) (dm_configs d2))
    as [d2 [E2 [K2 [S2 [H2 F2]]]]].
  { assert (Forall2 (fun c c' => same_tag c c' /\ blank (dm_elems d) c') (dm_configs d) (dm_configs d1)) as Blank.
    { assert (forall c', In c' (dm_configs d1) -> blank (dm_elems d) c') as B2 by (rewrite <- El1; exact B1). clear - T1 B2.
      induction T1; constructor; [split; [auto|apply B2; left; auto]|]. apply IHT1. intros c' Ic'. apply B2. right. auto. }
    destruct wi.
    2: { rewrite andb_false_r. exists d1. split; [auto|]. split; [auto|]. split; [repeat split|]. split; [apply same_heads_refl|exact Blank]. }
    cbn [find] in Hs. rewrite Tc, Te in Hs.
    destruct (if str_eqb (lit "Configurations") (lit "Settings") then Some xc
                  else if str_eqb (lit "ConfigurableElements") (lit "Settings") then Some xe
                  else find (fun c => str_eqb (x_type c) (lit "Settings")) ss') as [xs|].
    - destruct Hs as [-> Fs]. cbn [andb].
      destruct (settings_back y St Nm (dm_configs d) (x_elems xs) [] d1 [] (dm_configs d1) K1 Fs eq_refl (Forall2_nil _) T1 Nd Ne) as [d2 [E2 [K2 [S2 [H2 F2]]]]].
      { intros c Ic. rewrite El1. apply (dk_configs _ _ K c Ic). }
      exists d2. split; [auto|]. split; [auto|]. split; [auto|]. split; [auto|]. eapply Forall2_impl2; [|exact F2]. intros c c' _ [Q1 [Q2 Q3]]. repeat split; auto.
    - subst ws. cbn [andb]. exists d1. split; [auto|]. split; [auto|]. split; [repeat split|]. split; [apply same_heads_refl|exact Blank]. }
  rewrite E2. cbn [obind fst snd].
  destruct (auto_validate_idle y d2 K2) as [d3 [E3 [K3 [S3 [H3 C3]]]]].
  { destruct (ws && wi).
    - left. intros c' Ic'. destruct (Forall2_in_r _ _ _ _ _ _ F2 Ic') as [c [_ [_ Q]]]. apply Forall_forall. intros a' Ia'.
      destruct (Forall2_in_r _ _ _ _ _ _ Q Ia') as [a [_ [_ [V _]]]]. exact V.
    - right. intros c' Ic'. destruct (Forall2_in_r _ _ _ _ _ _ F2 Ic') as [c [_ [_ [_ Q]]]]. exact Q. }
  rewrite E3. cbn [obind]. exists d3, at1. split; [reflexivity|]. split; [auto|].
  pose proof (same_heads_trans _ _ _ H1 (same_heads_trans _ _ _ H2 H3)) as [A1 [A2 [A3 [A4 _]]]].
  destruct S2 as [S2a [S2b S2c]]. destruct S3 as [S3a [S3b S3c]].
  split. { destruct L1 as [M1 [M2 M3]]. split; [|split; [auto|]]. - intros p. replace (dm_id d3) with (dm_id d1) by congruence. replace (dm_elems d3) with (dm_elems d1) by congruence. apply M1.
           - replace (dm_id d3) with (dm_id d1) by congruence. exact M3. }
  split; [exact A1|]. split; [rewrite A2; exact Nx|]. split; [exact A3|]. split; [congruence|]. split; [exact A4|]. rewrite C3. exact F2.
Qed.

(** Settings are needed for the export only with them. *)
Definition exportable_as (y : system) (cs : list criterion) (f : fmt) (ws : bool) (d : domain) : Prop :=
  config_named d /\ (forall c, In c (dm_configs d) -> rule_exportable cs c)
  /\ (ws = true -> forall c, In c (dm_configs d) -> Forall (recorded_restorable y f) (cf_areas c)).

Lemma exportable_any : forall y cs f d ws, exportable y cs f d -> exportable_as y cs f ws d.
Proof. intros y cs f d ws [N H]. split; [auto|]. split; [intros; apply H; auto|]. intros _ c Ic. apply H. auto. Qed.

Lemma distinguishable_ok : forall cs, distinguishable cs -> crits_ok cs.
Proof. intros cs D i k H. apply (D i k H). Qed.

Lemma domains_back : forall y cs wi full, structure_ok y -> one_syncer y -> crits_ok cs ->
  forall l xs s, fine y cs s ->
  Forall2 (fun d x => x_type x = lit "ConfigurableDomain" /\ aware_from_xml x = Some (dm_aware d) /\ x_name x = dm_name d
       /\ forall id at0, NoDup at0 -> (forall p, ~ In (p, id) at0) ->
            exists d' at', domain_from_xml y cs wi (dm_aware d) id x at0 = Ok (true, (d', at')) /\ domain_ok y d' /\ linked d' at0 at' /\ dm_id d' = id
              /\ brought y full d d') l xs ->
  exists s' l', domains_from_xml y cs wi xs s = Ok (true, s') /\ fine y cs s' /\ ds_list s' = ds_list s ++ l' /\ Forall2 (brought y full) l l'.
Proof.
  intros y cs wi full St O C l. induction l as [|d l IH]; intros xs s K F; inversion F as [|? x ? xs' [T [A [Nx H]]] Fr]; subst; cbn [domains_from_xml].
  - exists s, []. rewrite app_nil_r. auto.
  - rewrite T, str_eqb_refl, A. destruct (H (ds_fresh s) (ds_att s) (ds_att_once _ _ (proj1 K)) (fun p => fresh_unattached y s p (proj1 K))) as [d' [at' [E [K' [L' [I' B]]]]]].
    rewrite E. cbn [obind].
    assert (forall c, In c (dm_configs d') -> rule_fine cs c) as Rf.
    { destruct (domain_from_ok y cs wi (dm_aware d) (ds_fresh s) x (ds_att s) St O C (ds_att_once _ _ (proj1 K)) (fun p => fresh_unattached y s p (proj1 K)) _ eq_refl)
        as [Q|[b [d2 [at2 [Q [_ [_ [_ [_ [_ [_ R]]]]]]]]]]]; rewrite E in Q; inversion Q; subst. exact R. }
    destruct (IH xs' (Domains (ds_list s ++ [d']) at' (S (ds_fresh s))) (appended_fine y cs s d' at' K K' L' I' Rf) Fr) as [s' [l' [E' [Fs [El Fl]]]]].
    exists s', (d' :: l'). split; [exact E'|]. split; [auto|]. split; [rewrite El; cbn [ds_list]; rewrite <- app_assoc; reflexivity|]. constructor; auto.
Qed.

Lemma import_all_back : forall y cs f ws s, structure_ok y -> one_syncer y -> names_ok (sy_root y) -> distinguishable cs -> domains_ok y s ->
  (forall d, In d (ds_list s) -> exportable_as y cs f ws d) ->
  exists x, domains_to_xml y cs f ws s = Ok x
    /\ forall x' wi s0, like x x' -> domains_ok y s0 ->
         exists s', import_all y cs wi x' s0 = Ok (true, s') /\ fine y cs s' /\ Forall2 (brought y (ws && wi)) (ds_list s) (ds_list s').
Proof.
  intros y cs f ws s St O Nm D K Ex. unfold domains_to_xml.
  destruct (export_list_ok _ (domain_to_xml y cs f ws) (fun d x => x_type x = lit "ConfigurableDomain" /\ aware_from_xml x = Some (dm_aware d) /\ x_name x = dm_name d
       /\ forall wi id at0, NoDup at0 -> (forall p, ~ In (p, id) at0) ->
            exists d' at', domain_from_xml y cs wi (dm_aware d) id x at0 = Ok (true, (d', at')) /\ domain_ok y d' /\ linked d' at0 at' /\ dm_id d' = id
              /\ brought y (ws && wi) d d') (ds_list s)) as [xs [E [El H]]].
  { intros d Id. destruct (Ex d Id) as [N1 [N2 N3]]. apply domain_back; auto. apply (ds_domain _ _ K d Id). }
  rewrite E. cbn [obind]. eexists. split; [reflexivity|]. intros x' wi s0 L K0. unfold import_all.
  assert (domains_root y x' = true) as ->.
  { unfold domains_root. rewrite <- (like_type _ _ L). change (str_eqb (x_type (XElem (lit "ConfigurableDomains") [(lit "SystemClassName", e_name (sy_root y))] xs)) (lit "ConfigurableDomains")) with true.
    rewrite <- (like_attr0 _ _ (lit "SystemClassName") L).
    change (x_attr0 (lit "SystemClassName") (XElem (lit "ConfigurableDomains") [(lit "SystemClassName", e_name (sy_root y))] xs)) with (e_name (sy_root y)).
    cbn [andb]. destruct (e_name (sy_root y)) eqn:En; [reflexivity|]. apply str_eqb_refl. }
  pose proof (like_elems _ _ L) as Fe. unfold x_elems at 1 in Fe. cbn [x_content] in Fe. rewrite El in Fe. specialize (H _ Fe).
  destruct (no_domains_fine y cs s0 K0) as [F0 E0].
  destruct (domains_back y cs wi (ws && wi) St O (distinguishable_ok cs D) (ds_list s) (x_elems x') (ds_delete_all s0) F0) as [s' [l' [E' [Fs [Els Fl]]]]].
  { eapply Forall2_impl2; [|exact H]. intros d x _ [H1 [H2 [H3 H4]]]. repeat split; auto. }
  rewrite E'. cbn [obind fst]. exists s'. split; [reflexivity|]. split; [auto|]. rewrite Els, E0. exact Fl.
Qed.

(** ** Criteria in other states *)

Definition same_criteria (cs cs' : list criterion) : Prop := map (fun k => (cr_name k, cr_type k)) cs = map (fun k => (cr_name k, cr_type k)) cs'.

Lemma same_criteria_nth : forall cs cs' i, same_criteria cs cs' ->
  match nth_error cs i, nth_error cs' i with
  | Some k, Some k' => cr_name k = cr_name k' /\ cr_type k = cr_type k' | None, None => True | _, _ => False end.
Proof.
  intros cs cs' i H. pose proof (f_equal (fun l => nth_error l i) H) as E. cbn beta in E. rewrite !nth_error_map in E.
  destruct (nth_error cs i), (nth_error cs' i); cbn in E; try discriminate; auto. inversion E; auto.
Qed.

Lemma rule_to_same : forall cs cs', same_criteria cs cs' -> forall r, rule_to_xml cs r = rule_to_xml cs' r.
Proof.
  intros cs cs' H. fix IH 1. intros [all l|i w v]; cbn [rule_to_xml].
  - f_equal. induction l as [|r l IHl]; [reflexivity|]. cbn [map]. rewrite (IH r), IHl. reflexivity.
  - pose proof (same_criteria_nth cs cs' i H) as Q. destruct (nth_error cs i), (nth_error cs' i); try contradiction; auto. destruct Q as [-> ->]. reflexivity.
Qed.

Lemma domain_to_same : forall y cs cs' f ws d, same_criteria cs cs' -> domain_to_xml y cs f ws d = domain_to_xml y cs' f ws d.
Proof.
  intros y cs cs' f ws d H. unfold domain_to_xml. f_equal.
  assert (map (config_to_xml cs) (dm_configs d) = map (config_to_xml cs') (dm_configs d)) as ->; [|reflexivity].
  apply map_ext. intros c. unfold config_to_xml. destruct (cf_rule c); [|reflexivity]. rewrite (rule_to_same cs cs' H). reflexivity.
Qed.

Lemma domains_to_same : forall y cs cs' f ws s, same_criteria cs cs' -> domains_to_xml y cs f ws s = domains_to_xml y cs' f ws s.
Proof.
  intros y cs cs' f ws s H. unfold domains_to_xml. assert (omap_list (domain_to_xml y cs f ws) (ds_list s) = omap_list (domain_to_xml y cs' f ws) (ds_list s)) as ->; [|reflexivity].
  generalize (ds_list s). intros l. induction l as [|d l IH]; [reflexivity|]. cbn [omap_list]. rewrite (domain_to_same y cs cs' f ws d H), IH. reflexivity.
Qed.

Lemma distinguishable_same : forall cs cs', same_criteria cs cs' -> distinguishable cs -> distinguishable cs'.
Proof.
  intros cs cs' H D i k' Hk. pose proof (same_criteria_nth cs cs' i H) as Q. rewrite Hk in Q. destruct (nth_error cs i) as [k|] eqn:Ek; [|contradiction].
  destruct Q as [Q1 Q2]. destruct (D i k Ek) as [D1 [D2 [D3 D4]]]. rewrite <- Q1, <- Q2. split; [auto|]. split; [|auto].
  intros j k2 Hj En. pose proof (same_criteria_nth cs cs' j H) as Q. rewrite Hj in Q. destruct (nth_error cs j) as [k3|] eqn:Ej; [|contradiction].
  apply (D2 j k3 Ej). destruct Q. congruence.
Qed.

Lemma writable_same : forall cs cs', same_criteria cs cs' -> forall r, writable cs r -> writable cs' r.
Proof.
  intros cs cs' H. fix IH 1. intros [all l|i w v] W.
  - inversion W as [|? ? F]; subst. constructor. clear W. induction l as [|r l IHl]; [constructor|]. inversion F; subst. constructor; [apply IH; assumption|apply IHl; assumption].
  - inversion W as [? k ? ? l Hk Hw Hl|]; subst. pose proof (same_criteria_nth cs cs' i H) as Q. rewrite Hk in Q. destruct (nth_error cs' i) as [k'|] eqn:Ek; [|contradiction].
    destruct Q as [_ Q]. rewrite Q in Hw, Hl. eapply wr_crit; eauto.
Qed.

Lemma exportable_same : forall y cs cs' f ws d, same_criteria cs cs' -> exportable_as y cs f ws d -> exportable_as y cs' f ws d.
Proof.
  intros y cs cs' f ws d H [N [R V]]. split; [auto|]. split; [|auto]. intros c Ic r Hr. destruct (R c Ic r Hr) as [W E]. split; [|auto]. eapply writable_same; eauto.
Qed.

Lemma import_one_back : forall y cs f ws d, structure_ok y -> one_syncer y -> names_ok (sy_root y) -> distinguishable cs -> domain_ok y d ->
  exportable_as y cs f ws d ->
  exists x, domain_to_xml y cs f ws d = Ok x
    /\ forall x' wi overwrite s, like x x' -> fine y cs s ->
         (ds_find (dm_name d) s = None -> exists s' d', import_one y cs wi overwrite x' s = Ok (true, s') /\ ds_list s' = ds_list s ++ [d'] /\ brought y (ws && wi) d d')
         /\ (forall d0, ds_find (dm_name d) s = Some d0 -> overwrite = true ->
              exists s' d' l1 l2, import_one y cs wi overwrite x' s = Ok (true, s') /\ ds_list s = l1 ++ d0 :: l2 /\ ds_list s' = l1 ++ l2 ++ [d'] /\ brought y (ws && wi) d d')
         /\ (ds_find (dm_name d) s <> None -> overwrite = false ->
              exists s', import_one y cs wi overwrite x' s = Ok (false, s') /\ ds_list s' = ds_list s).
Proof.
  intros y cs f ws d St O Nm D K [N1 [N2 N3]]. destruct (domain_back y cs f ws d St O Nm D K N1 N2 N3) as [x [E [_ B]]].
  exists x. split; [exact E|]. intros x' wi ov s L F. destruct (B x' L) as [T [A [Nx B']]].
  destruct (B' wi (ds_fresh s) (ds_att s) (ds_att_once _ _ (proj1 F)) (fun p => fresh_unattached y s p (proj1 F))) as [d' [at' [Ed [Kd [Ld [Id Br]]]]]].
  unfold import_one. rewrite T, str_eqb_refl, A, Ed. cbn [obind].
  assert (dm_name d' = dm_name d) as En by apply Br. rewrite En.
  assert (ds_find (dm_name d) (Domains (ds_list s) at' (S (ds_fresh s))) = ds_find (dm_name d) s) as -> by reflexivity.
  split; [|split].
  - intros Hn. rewrite Hn. do 2 eexists. split; [reflexivity|]. split; [reflexivity|]. exact Br.
  - intros d0 Hs ->. rewrite Hs. destruct (ds_find_split _ _ _ Hs) as [l1 [l2 [El [Pn Fl]]]].
    exists (Domains ((l1 ++ l2) ++ [d']) (forget d0 at') (S (ds_fresh s))), d', l1, l2. split; [|split; [exact El|split; [cbn [ds_list]; apply eq_sym, app_assoc|exact Br]]].
    unfold ds_delete. assert (ds_find (dm_name d) (Domains (ds_list s) at' (S (ds_fresh s))) = Some d0) as -> by exact Hs.
    cbn [snd ds_list ds_att ds_fresh]. rewrite El, drop_domain_split by auto. reflexivity.
  - intros Hs ->. destruct (ds_find (dm_name d) s); [|congruence]. eexists. split; [reflexivity|reflexivity].
Qed.
