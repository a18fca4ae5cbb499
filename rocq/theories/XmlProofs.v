(** Proofs about the export and import of settings as XML. *)
From Coq Require Import List Arith ZArith Bool Ascii String Lia.
From Verif Require Import Base BaseProofs TextModel ParamTypeModel BlackboardModel BitModel BitProofs ArrayModel ArraySpec TreeModel TreeSpec TreeProofs MemSpec
  MemProofs LocalProofs SyncModel DomainModel DomainSpec MgrModel MgrSpec MgrProofs MgrFlow ValueSpec ValueProofs XmlModel XmlSpec XmlLeaf XmlFlat.
Import ListNotations.
Local Open Scope nat_scope.

Lemma owns_kind_bit : forall root q c i, param_at root q c ->
  (owns root q i <-> exists j, kind_bit (e_kind c) j = true /\ i = 8 * offset root q + j).
Proof.
  intros root q c i [E P]. unfold owns. pose proof (storage_size_kind c P) as S. unfold storage_size in S.
  assert (forall j, field_bit c j = kind_bit (e_kind c) j) as F.
  { intros j. unfold field_bit, kind_bit. destruct (e_kind c) eqn:K; auto; try discriminate; rewrite S; auto. }
  split.
  - intros [c' [E' [H1 H2]]]. rewrite E in E'. inversion E'; subst c'. exists (i - 8 * offset root q). rewrite <- F. split; auto. lia.
  - intros [j [H ->]]. exists c. split; auto. split; [lia|]. rewrite F. replace (8 * offset root q + j - 8 * offset root q) with j by lia. auto.
Qed.

Section Run.
Context (root : elem) (W : elem_wf root = true) (Fa : fields_apart root).
Context (p : pos) (e : elem) (E : elem_at root p = Some e) (x : xnode) (base : nat) (B : base <= offset root p) (hex : bool).

Let f := item_at e (Some x) (offset root p).
Definition room (bb : blackboard) : Prop :=
  forall r c, param_at root (p ++ r) c -> base <= offset root (p ++ r) /\ offset root (p ++ r) - base + storage_size c <= List.length bb.
Definition text_at (r : list nat) : str := ox_text (x_at x r).

Lemma param_of_params : forall r k, In (r, k) (params e) -> exists c, param_at root (p ++ r) c /\ e_kind c = k.
Proof.
  intros r k H. apply (params_In e (bare_root root p e W E)) in H. destruct H as [c [H1 [H2 H3]]]. exists c. split; auto.
  split; [rewrite elem_at_app, E; auto|]. rewrite H2. auto.
Qed.

Lemma params_of_param : forall r c, param_at root (p ++ r) c -> In (r, e_kind c) (params e).
Proof.
  intros r c [H P]. apply (params_In e (bare_root root p e W E)). exists c. rewrite elem_at_app, E in H. auto.
Qed.

Lemma item_off : forall r, offset_in e r (offset root p) = offset root (p ++ r).
Proof. intros r. symmetry. apply offset_app. auto. Qed.

Lemma run_frame : forall pks raw bb, incl pks (params e) -> room bb ->
  exists ok raw' bb', run_items (map f pks) base hex raw bb = Ok (ok, raw', bb') /\ List.length bb' = List.length bb
    /\ forall i, 8 * base <= i -> (forall r k, In (r, k) pks -> ~ owns root (p ++ r) i) -> bits_at base bb' i = bits_at base bb i.
Proof.
  induction pks as [|[r k] pks IH]; intros raw bb I R; cbn [map run_items].
  - exists true, raw, bb. auto.
  - destruct (param_of_params r k) as [c [Pc Kc]]; [apply I; simpl; auto|]. change (f (r, k)) with (Item k (offset_in e r (offset root p)) (ox_text (ox_at (Some x) r)) (ox_raw (ox_at (Some x) r))).
    cbn [it_kind it_off it_text it_raw].
    rewrite item_off. set (raw1 := if spaced k then _ else raw). destruct (R r c Pc) as [B2 L].
    pose proof (param_kind_wf root _ c W Pc) as Wk. rewrite (storage_size_kind c (proj2 Pc)) in L.
    destruct (leaf_set_frame (e_kind c) (Fmt raw1 hex) [] (ox_text (ox_at (Some x) r)) (offset root (p ++ r) - base) bb Wk L) as [ok [b1 [H1 [H2 _]]]].
    rewrite <- leaf_set_base in H1. pose proof (leaf_set_bits root (p ++ r) c (Fmt raw1 hex) [] (ox_text (ox_at (Some x) r)) base bb ok b1 W Pc B2) as Fr.
    rewrite (storage_size_kind c (proj2 Pc)) in Fr. destruct (Fr L H1) as [_ Fr2]. rewrite Kc in H1. rewrite H1. cbn [obind fst snd]. destruct ok.
    + destruct (IH raw1 b1) as [ok2 [raw2 [b2 [G1 [G2 G3]]]]].
      { intros y Hy. apply I. simpl. auto. }
      { intros r2 c2 P2. rewrite H2. apply R. auto. }
      exists ok2, raw2, b2. split; auto. split; [lia|]. intros i Hi N. rewrite G3, Fr2; auto.
      * apply (N r k). simpl. auto.
      * intros r2 k2 I2. apply (N r2 k2). simpl. auto.
    + exists false, raw1, b1. split; auto. split; auto. intros i Hi N. apply Fr2; auto. apply (N r k). simpl. auto.
Qed.

Lemma run_space : forall pks raw bb raw' bb', run_items (map f pks) base hex raw bb = Ok (true, raw', bb') -> raw' = space_after x raw pks.
Proof.
  induction pks as [|[r k] pks IH]; intros raw bb raw' bb' H; cbn [map run_items] in H.
  - inversion H. auto.
  - destruct (leaf_set _ _ _ _ _ _ _) as [[ok b1]| | |]; try discriminate. cbn [obind fst snd] in H. destruct ok; [|inversion H].
    apply IH in H. rewrite H. unfold space_after. cbn [fold_left fst snd]. unfold f. cbn [item_at it_kind it_raw fst snd]. auto.
Qed.

(** Running up to one parameter. *)
Lemma run_reaches : forall pre r k post raw bb ok raw' bb', incl (pre ++ (r, k) :: post) (params e) -> NoDup (map fst (pre ++ (r, k) :: post)) -> room bb ->
  run_items (map f (pre ++ (r, k) :: post)) base hex raw bb = Ok (ok, raw', bb') -> 
  (exists raw1 b1, run_items (map f pre) base hex raw bb = Ok (false, raw1, b1) /\ ok = false)
  \/ exists c ok1 b1 b2 b3, param_at root (p ++ r) c /\ e_kind c = k
       /\ leaf_set k (Fmt (space_after x raw (pre ++ [(r, k)])) hex) [] (text_at r) (offset root (p ++ r)) base bb = Ok (ok1, b1)
       /\ leaf_set k (Fmt (space_after x raw (pre ++ [(r, k)])) hex) [] (text_at r) (offset root (p ++ r)) base b2 = Ok (ok1, b3)
       /\ (exists raw2, run_items (map f pre) base hex raw bb = Ok (true, raw2, b2))
       /\ (ok1 = false -> ok = false /\ bb' = b3)
       /\ (forall i, owns root (p ++ r) i -> bits_at base bb' i = bits_at base b1 i).
Proof.
  intros pre r k post raw bb ok raw' bb' I N R H. rewrite map_app, run_items_app in H.
  destruct (run_frame pre raw bb) as [okp [rawp [bp [Hp [Lp Fp]]]]]; [intros y Hy; apply I; apply in_or_app; auto|auto|].
  rewrite Hp in H. cbn [obind] in H. destruct okp; [|left; inversion H; subst; eauto]. right.
  destruct (param_of_params r k) as [c [Pc Kc]]; [apply I; apply in_or_app; simpl; auto|]. destruct (R r c Pc) as [B2 L].
  pose proof (param_kind_wf root _ c W Pc) as Wk. rewrite (storage_size_kind c (proj2 Pc)) in L.
  pose proof (run_space _ _ _ _ _ Hp) as Sp.
  set (raw1 := space_after x raw (pre ++ [(r, k)])).
  assert ((if spaced k then asks_raw x r else rawp) = raw1) as Er.
  { unfold raw1, space_after. rewrite fold_left_app. cbn [fold_left fst snd]. fold (space_after x raw pre). rewrite <- Sp. auto. }
  assert (forall i, owns root (p ++ r) i -> bits_at base bp i = bits_at base bb i) as Same.
  { intros i Hi. apply Fp.
    - pose proof (owns_range root (p ++ r) c i W (proj1 Pc) Hi). lia.
    - intros r2 k2 I2 O2. destruct (param_of_params r2 k2) as [c2 [P2 K2]]; [apply I; apply in_or_app; auto|].
      apply (owns_apart root (p ++ r) (p ++ r2) i W Fa); auto. apply (params_unrelated root _ _ c c2 W Pc P2). intros Eq. apply app_inv_head in Eq. subst r2.
      rewrite map_app in N. cbn [map fst] in N. apply NoDup_remove_2 in N. apply N. apply in_or_app. left. apply in_map_iff. exists (r, k2). auto. }
  destruct (leaf_set_local (e_kind c) (Fmt raw1 hex) (text_at r) (offset root (p ++ r) - base) bb (offset root (p ++ r) - base) bp Wk) as [ok1 [b1 [b3 [H1 [H3 Lo]]]]]; auto; [lia| |].
  { intros j Hj. assert (owns root (p ++ r) (8 * offset root (p ++ r) + j)) as O by (apply (owns_kind_bit root _ c); eauto).
    specialize (Same _ O). unfold bits_at in Same. replace (8 * offset root (p ++ r) + j - 8 * base) with (8 * (offset root (p ++ r) - base) + j) in Same by lia. auto. }
  rewrite <- leaf_set_base in H1, H3. rewrite Kc in H1, H3.
  assert (forall i, owns root (p ++ r) i -> bits_at base b3 i = bits_at base b1 i) as Same3.
  { intros i Hi. apply (owns_kind_bit root _ c i Pc) in Hi. destruct Hi as [j [Hj ->]]. unfold bits_at.
    replace (8 * offset root (p ++ r) + j - 8 * base) with (8 * (offset root (p ++ r) - base) + j) by lia. symmetry. apply Lo. auto. }
  exists c, ok1, b1, bp, b3. split; auto. split; auto. split; auto. split; auto. split; [eauto|].
  cbn [map run_items] in H. change (f (r, k)) with (Item k (offset_in e r (offset root p)) (ox_text (ox_at (Some x) r)) (ox_raw (ox_at (Some x) r))) in H.
    cbn [it_kind it_off it_text it_raw] in H. rewrite item_off in H.
  change (ox_raw (ox_at (Some x) r)) with (asks_raw x r) in H. rewrite Er in H. change (ox_text (ox_at (Some x) r)) with (text_at r) in H.
  rewrite H3 in H. cbn [obind fst snd] in H. destruct ok1.
  - split; [discriminate|]. intros i Hi.
    assert (List.length b3 = List.length bp) as L3.
    { pose proof (leaf_set_bits root (p ++ r) c (Fmt raw1 hex) [] (text_at r) base bp true b3 W Pc B2) as Fr.
      rewrite (storage_size_kind c (proj2 Pc)) in Fr. rewrite Kc in Fr. rewrite Kc in L. apply Fr; auto. lia. }
    destruct (run_frame post raw1 b3) as [okq [rawq [bq [Hq [_ Fq]]]]].
    { intros y Hy. apply I. apply in_or_app. simpl. auto. }
    { intros r2 c2 P2. rewrite L3, Lp. apply R. auto. }
    rewrite Hq in H. inversion H; subst okq rawq bq. rewrite Fq; auto.
    + pose proof (owns_range root (p ++ r) c i W (proj1 Pc) Hi). lia.
    + intros r2 k2 I2 O2. destruct (param_of_params r2 k2) as [c2 [P2 K2]]; [apply I; apply in_or_app; simpl; auto|].
      apply (owns_apart root (p ++ r) (p ++ r2) i W Fa); auto. apply (params_unrelated root _ _ c c2 W Pc P2). intros Eq. apply app_inv_head in Eq. subst r2.
      rewrite map_app in N. cbn [map fst] in N. apply NoDup_remove_2 in N. apply N. apply in_or_app. right. apply in_map_iff. exists (r, k2). auto.
  - inversion H; subst. split; auto.
Qed.

(** A refused run stops at a refused text. *)
Lemma run_refused : forall pks raw bb raw' bb', incl pks (params e) -> room bb ->
  run_items (map f pks) base hex raw bb = Ok (false, raw', bb') ->
  exists pre r k post raw1 b1 b2, pks = pre ++ (r, k) :: post /\ run_items (map f pre) base hex raw bb = Ok (true, raw1, b1)
    /\ leaf_set k (Fmt (space_after x raw (pre ++ [(r, k)])) hex) [] (text_at r) (offset root (p ++ r)) base b1 = Ok (false, b2) /\ bb' = b2.
Proof.
  induction pks as [|[r k] pks IH] using rev_ind; intros raw bb raw' bb' I R H; [discriminate|].
  rewrite map_app, run_items_app in H.
  destruct (run_frame pks raw bb) as [okp [rawp [bp [Hp [Lp Fp]]]]]; [intros y Hy; apply I; apply in_or_app; auto|auto|].
  rewrite Hp in H. cbn [obind] in H. destruct okp.
  - exists pks, r, k, []. cbn [map run_items] in H. change (f (r, k)) with (Item k (offset_in e r (offset root p)) (ox_text (ox_at (Some x) r)) (ox_raw (ox_at (Some x) r))) in H.
    cbn [it_kind it_off it_text it_raw] in H. rewrite item_off in H.
    change (ox_raw (ox_at (Some x) r)) with (asks_raw x r) in H. change (ox_text (ox_at (Some x) r)) with (text_at r) in H.
    pose proof (run_space _ _ _ _ _ Hp) as Sp. subst rawp.
    assert (space_after x raw (pks ++ [(r, k)]) = if spaced k then asks_raw x r else space_after x raw pks) as Es.
    { unfold space_after. rewrite fold_left_app. auto. }
    rewrite Es. destruct (leaf_set k _ _ _ _ _ bp) as [[ok b2]| | |] eqn:El; try discriminate. cbn [obind fst snd] in H. destruct ok; inversion H; subst.
    exists (space_after x raw pks), bp, bb'. auto.
  - inversion H; subst. destruct (IH raw bb raw' bb') as [pre [r2 [k2 [post [raw1 [b1 [b2 [E1 [E2 [E3 E4]]]]]]]]]]; auto.
    { intros y Hy. apply I. apply in_or_app. auto. }
    exists pre, r2, k2, (post ++ [(r, k)]), raw1, b1, b2. split; [rewrite E1, <- app_assoc; auto|]. auto.
Qed.

(** Values of their types stay so. *)
Lemma run_values : forall pks raw bb ok raw' bb', incl pks (params e) -> room bb ->
  (forall r c, param_at root (p ++ r) c -> value_ok (e_kind c) (offset root (p ++ r) - base) bb) ->
  run_items (map f pks) base hex raw bb = Ok (ok, raw', bb') ->
  forall r c, param_at root (p ++ r) c -> value_ok (e_kind c) (offset root (p ++ r) - base) bb'.
Proof.
  induction pks as [|[r k] pks IH]; intros raw bb ok raw' bb' I R V H r0 c0 P0; cbn [map run_items] in H.
  - inversion H; subst. auto.
  - destruct (param_of_params r k) as [c [Pc Kc]]; [apply I; simpl; auto|].
    change (f (r, k)) with (Item k (offset_in e r (offset root p)) (ox_text (ox_at (Some x) r)) (ox_raw (ox_at (Some x) r))) in H.
    cbn [it_kind it_off it_text it_raw] in H. rewrite item_off in H.
    set (raw1 := if spaced k then _ else raw) in H. destruct (R r c Pc) as [B2 L].
    pose proof (param_kind_wf root _ c W Pc) as Wk.
    destruct (leaf_set k _ _ _ _ _ bb) as [[ok1 b1]| | |] eqn:El; try discriminate. cbn [obind fst snd] in H.
    assert (List.length b1 = List.length bb /\ forall i, 8 * base <= i -> ~ owns root (p ++ r) i -> bits_at base b1 i = bits_at base bb i) as [L1 Fr].
    { rewrite <- Kc in El. apply (leaf_set_bits root (p ++ r) c _ _ _ base bb ok1 b1 W Pc B2 L El). }
    assert (forall r c, param_at root (p ++ r) c -> value_ok (e_kind c) (offset root (p ++ r) - base) b1) as V1.
    { intros r2 c2 P2. destruct (list_eq_dec Nat.eq_dec r2 r) as [->|Ne].
      - assert (c2 = c) as -> by (destruct P2, Pc; congruence). rewrite leaf_set_base in El. rewrite <- Kc in El.
        rewrite (storage_size_kind c (proj2 Pc)) in L. eapply leaf_set_value; eauto.
      - destruct (R r2 c2 P2) as [B3 L3]. apply (value_ok_local root (p ++ r2) c2 (offset root (p ++ r2) - base) bb (offset root (p ++ r2) - base) b1 W P2); auto; [lia|].
        intros bit O. pose proof (Fr (8 * offset root (p ++ r2) + bit)) as X. unfold bits_at in X.
        replace (8 * offset root (p ++ r2) + bit - 8 * base) with (8 * (offset root (p ++ r2) - base) + bit) in X by lia. symmetry. apply X; [lia|].
        intros O2. apply (owns_apart root (p ++ r2) (p ++ r) (8 * offset root (p ++ r2) + bit) W Fa); auto. apply (params_unrelated root _ _ c2 c W P2 Pc). intros Eq. apply app_inv_head in Eq. auto. }
    destruct ok1; [|inversion H; subst; auto]. apply (IH raw1 b1 ok raw' bb'); auto.
    + intros y Hy. apply I. simpl. auto.
    + intros r2 c2 P2. rewrite L1. apply R. auto.
Qed.
End Run.

(** ** The whole import *)

Lemma import_runs : forall root p e x base hex, elem_wf root = true -> elem_at root p = Some e ->
  exists pks post fit, params e = pks ++ post /\ (fit = true <-> fits e x) /\ (fit = true -> post = [])
    /\ forall raw bb, import_settings e x (offset root p) base hex raw bb
         = gate fit (run_items (map (item_at e (Some x) (offset root p)) pks) base hex raw bb).
Proof.
  intros root p e x base hex W E.
  destruct (import_items e (bare_root root p e W E) x (offset root p) base hex) as [l [tl [fit [I [F [T R]]]]]].
  rewrite items_params in I. apply map_eq_app in I. destruct I as [pks [post [E1 [E2 E3]]]].
  subst l. exists pks, post, fit. split; auto. split; auto. split; auto.
  intros X. specialize (T X). subst tl. destruct post; auto. discriminate.
Qed.
