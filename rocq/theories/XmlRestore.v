(** Proofs about the export of settings as XML and its import elsewhere. *)
From Coq Require Import List Arith ZArith Bool Ascii String Lia.
From Verif Require Import Base BaseProofs TextModel ParamTypeModel ParamTypeSpec BlackboardModel BitModel BitProofs ArrayModel ArraySpec TreeModel TreeSpec TreeProofs MemSpec
  MemProofs LocalProofs SyncModel DomainModel DomainSpec MgrModel MgrSpec MgrProofs MgrFlow MapProofs ValueSpec ValueProofs XmlModel XmlSpec XmlLeaf XmlFlat XmlProofs.
Import ListNotations.
Local Open Scope nat_scope.

Lemma f2_length : forall A B (R : A -> B -> Prop) l l', Forall2 R l l' -> List.length l = List.length l'.
Proof. intros A B R l l' F. induction F; simpl; auto. Qed.

Fixpoint export_list (cs : list elem) (off base : nat) (f : fmt) (bb : blackboard) : outcome (list xnode) :=
  match cs with
  | [] => Ok []
  | c :: r => do x <- export_settings c off base f bb; do xs <- export_list r (off + footprint c) base f bb; Ok (x :: xs)
  end.

Lemma export_eq : forall nm k cs off base f bb, export_settings (Elem nm k cs) off base f bb
  = do text <- (if is_param k then omap (fun s => [XText s]) (leaf_get k f [] off base bb) else Ok []);
    do subs <- export_list cs off base f bb;
    Ok (XElem (xml_name k) ((if spaced k && f_raw f then [(lit "ValueSpace", lit "Raw")] else []) ++ [(lit "Name", nm)]) (text ++ subs)).
Proof.
  intros nm k cs off base f bb. cbn [export_settings]. destruct (if is_param k then _ else _); cbn [obind]; auto. f_equal.
  clear. revert off. induction cs as [|c cs IH]; intros off; auto. cbn [export_list]. rewrite <- IH. reflexivity.
Qed.

(** A document that shows every parameter of [e]. *)
Definition shows (e : elem) (f : fmt) (value : list nat -> ekind -> str -> Prop) (x : xnode) : Prop :=
  is_elem x = true /\ x_type x = xml_name (e_kind e) /\ x_name x = e_name e /\ fits e x
  /\ forall r k, In (r, k) (params e) -> exists xr, x_at x r = Some xr /\ x_elems xr = [] /\ value r k (x_text xr)
       /\ (spaced k = true -> asks_raw x r = f_raw f).

Lemma export_shows : forall e, bare e -> forall off base f bb,
  (forall r k, In (r, k) (params e) -> exists s, leaf_get k f [] (offset_in e r off) base bb = Ok s) ->
  exists x, export_settings e off base f bb = Ok x
    /\ shows e f (fun r k s => leaf_get k f [] (offset_in e r off) base bb = Ok s) x.
Proof.
  apply (elem_ind_nested (fun e => bare e -> forall off base f bb,
    (forall r k, In (r, k) (params e) -> exists s, leaf_get k f [] (offset_in e r off) base bb = Ok s) ->
    exists x, export_settings e off base f bb = Ok x
      /\ shows e f (fun r k s => leaf_get k f [] (offset_in e r off) base bb = Ok s) x)).
  intros nm k cs IH Ba off base f bb Hg. rewrite export_eq.
  assert (forall (sp : bool) t c, x_name (XElem t ((if sp then [(lit "ValueSpace", lit "Raw")] else []) ++ [(lit "Name", nm)]) c) = nm) as Nm.
  { intros [|] t c; reflexivity. }
  destruct (is_param k) eqn:K.
  - destruct (Hg [] k) as [s Hs]; [rewrite params_eq, K; simpl; auto|]. cbn [offset_in] in Hs. rewrite Hs. cbn [omap obind].
    assert (cs = []) as ->.
    { apply (Ba [] (Elem nm k cs)); auto. }
    cbn [export_list obind]. eexists. split; [reflexivity|]. split; auto. split; auto. split; [apply Nm|]. split; [apply fits_iff; constructor|].
    intros r k' I. rewrite params_eq, K in I. destruct I as [I|[]]. inversion I; subst. eexists. split; [reflexivity|]. split; auto.
    split; [cbn; rewrite app_nil_r; auto|]. intros Sp. unfold asks_raw. cbn [x_at]. rewrite Sp. cbn [andb]. destruct (f_raw f); reflexivity.
  - cbn [obind].
    assert (exists subs, export_list cs off base f bb = Ok subs
      /\ Forall2 (fun ic x => shows (snd ic) f (fun r k s => leaf_get k f [] (offset_in (snd ic) r (fst ic)) base bb = Ok s) x)
           (map (fun i => (off + list_sum (map footprint (firstn i cs)), nth i cs (Elem nm k cs))) (seq 0 (List.length cs))) subs) as [subs [Es Fs]].
    { assert (forall n c, nth_error cs n = Some c -> forall r k', In (r, k') (params c) ->
        exists s, leaf_get k' f [] (offset_in c r (off + list_sum (map footprint (firstn n cs)))) base bb = Ok s) as Hc.
      { intros n c Hn r k' I. destruct (Hg (n :: r) k') as [s Hs].
        - rewrite params_eq, K. apply params_list_In. exists n, c, r. auto.
        - exists s. cbn [offset_in] in Hs. cbn [e_children] in Hs. rewrite Hn in Hs. auto. }
      assert (forall c, In c cs -> bare c) as Bc by (intros c Hc2; apply (bare_child nm k cs c Ba Hc2)).
      clear Ba Hg. generalize (Elem nm k cs) as d. intros d. revert off Hc. induction cs as [|c cs' IHc]; intros off Hc.
      - exists []. split; auto. constructor.
      - inversion IH as [|? ? IHh IHt]; subst. cbn [export_list].
        destruct (IHh (Bc c (or_introl eq_refl)) off base f bb) as [x [Ex Sx]].
        { intros r k' I. destruct (Hc 0 c eq_refl r k' I) as [s Hs]. cbn in Hs. rewrite Nat.add_0_r in Hs. eauto. }
        rewrite Ex. cbn [obind]. destruct (IHc IHt (fun c' H => Bc c' (or_intror H)) (off + footprint c)) as [xs [Exs Sxs]].
        { intros n c' Hn r k' I. destruct (Hc (S n) c' Hn r k' I) as [s Hs]. exists s. rewrite <- Hs. f_equal. f_equal. cbn [firstn map list_sum fold_right]. unfold list_sum. lia. }
        rewrite Exs. cbn [obind]. exists (x :: xs). split; auto. cbn [List.length seq map]. constructor.
        + cbn [snd fst firstn map nth]. cbn [list_sum fold_right]. rewrite Nat.add_0_r. auto.
        + rewrite <- seq_shift, map_map. refine (eq_ind _ (fun l => Forall2 _ l xs) Sxs _ _).
          apply map_ext. intros i. cbn [firstn map nth]. f_equal. cbn [list_sum fold_right]. unfold list_sum. simpl. lia. }
    rewrite Es. cbn [obind app]. eexists. split; [reflexivity|].
    assert (List.length subs = List.length cs) as Ls by (apply f2_length in Fs; rewrite map_length, seq_length in Fs; auto).
    assert (forall n c, nth_error cs n = Some c -> exists x, nth_error subs n = Some x
      /\ shows c f (fun r k s => leaf_get k f [] (offset_in c r (off + list_sum (map footprint (firstn n cs)))) base bb = Ok s) x) as Nth.
    { intros n c Hn. assert (n < List.length cs) as Lt by (apply nth_error_Some; congruence).
      destruct (nth_error subs n) as [x|] eqn:Hx; [|apply nth_error_None in Hx; lia]. exists x. split; auto.
      assert (nth_error (map (fun i => (off + list_sum (map footprint (firstn i cs)), nth i cs (Elem nm k cs))) (seq 0 (List.length cs))) n
        = Some (off + list_sum (map footprint (firstn n cs)), c)) as Hm.
      { rewrite (map_nth_error _ n (seq 0 (List.length cs)) (d := n)).
        - rewrite (nth_error_nth cs n _ Hn). auto.
        - rewrite (nth_error_nth' _ 0) by (rewrite seq_length; auto). rewrite seq_nth; auto. }
      exact (Forall2_nth_error _ _ _ _ _ Fs n _ _ Hm Hx). }
    assert (filter is_elem subs = subs) as Fil.
    { clear - Fs. induction Fs as [|ic x l l' H F IH]; auto. cbn [filter]. rewrite (proj1 H), IH. auto. }
    split; auto. split; auto. split; [apply Nm|]. split.
    + apply fits_iff. unfold x_elems. cbn [x_content]. rewrite Fil. 
      assert (forall subs, List.length subs = List.length cs -> (forall n c, nth_error cs n = Some c -> exists x, nth_error subs n = Some x /\ tagged c x /\ fits c x) ->
        fits_list cs subs) as X.
      { clear. induction cs as [|c cs IH]; intros [|x xs] L N; try discriminate; [constructor|]. constructor.
        - destruct (N 0 c eq_refl) as [x' [H1 H2]]. inversion H1; subst. auto.
        - apply IH; auto. intros n c' Hn. apply (N (S n) c' Hn). }
      apply X; auto. intros n c Hn. destruct (Nth n c Hn) as [x [H1 [_ [H2 [H3 [H4 _]]]]]]. exists x. split; auto. split; auto. split; auto.
    + intros r k' I. rewrite params_eq, K in I. apply params_list_In in I. destruct I as [j [c [r' [Hj [-> I]]]]]. cbn [Nat.add].
      destruct (Nth j c Hj) as [x [Hx Sx]]. destruct Sx as [_ [_ [_ [_ Sx]]]]. destruct (Sx r' k' I) as [xr [H1 [H2 [H3 H4]]]].
      exists xr. cbn [x_at]. unfold x_elems at 1. cbn [x_content]. rewrite Fil, Hx. split; auto. split; auto. split.
      * cbn [offset_in e_children]. rewrite Hj. auto.
      * intros Sp. specialize (H4 Sp). unfold asks_raw in *. cbn [x_at]. unfold x_elems at 1. cbn [x_content]. rewrite Fil, Hx. auto.
Qed.

(** ** Documents alike *)

Lemma like_attr : forall x x' nm, like x x' -> x_attr nm x = x_attr nm x'.
Proof. intros x x' nm H. inversion H; subst. apply H0. Qed.
Lemma like_attr0 : forall x x' nm, like x x' -> x_attr0 nm x = x_attr0 nm x'.
Proof. intros. unfold x_attr0. rewrite (like_attr x x'); auto. Qed.
Lemma like_type : forall x x', like x x' -> x_type x = x_type x'.
Proof. intros x x' H. inversion H; auto. Qed.
Lemma like_elems : forall x x', like x x' -> Forall2 like (x_elems x) (x_elems x').
Proof. intros x x' H. inversion H; auto. Qed.
Lemma like_text : forall x x', like x x' -> x_elems x = [] -> x_text x = x_text x'.
Proof. intros x x' H E. inversion H; subst. auto. Qed.

Lemma like_at : forall r x x' xr, like x x' -> x_at x r = Some xr -> exists xr', x_at x' r = Some xr' /\ like xr xr'.
Proof.
  induction r as [|i r IH]; intros x x' xr L H; cbn [x_at] in *.
  - inversion H; subst. eauto.
  - pose proof (like_elems x x' L) as F. destruct (nth_error (x_elems x) i) as [c|] eqn:Ec; [|discriminate].
    destruct (nth_error (x_elems x') i) as [c'|] eqn:Ec'.
    + apply (IH c c'); auto. exact (Forall2_nth_error _ _ _ _ _ F i c c' Ec Ec').
    + apply nth_error_None in Ec'. apply f2_length in F. assert (i < List.length (x_elems x)) by (apply nth_error_Some; congruence). lia.
Qed.

Lemma like_tagged : forall e x x', like x x' -> tagged e x -> tagged e x'.
Proof.
  intros e x x' L [H1 H2]. unfold tagged, x_name in *. rewrite <- (like_type x x' L), <- (like_attr0 x x' (lit "Name") L). auto.
Qed.

Lemma like_fits : forall e x x', like x x' -> fits e x -> fits e x'.
Proof.
  apply (elem_ind_nested (fun e => forall x x', like x x' -> fits e x -> fits e x')). intros nm k cs IH x x' L F.
  apply fits_iff. apply fits_iff in F. pose proof (like_elems x x' L) as Fe. revert F Fe. generalize (x_elems x), (x_elems x').
  induction cs as [|c cs IHc]; intros l l' F Fe; inversion F; subst; inversion Fe; subst; [constructor|]. inversion IH; subst. constructor; [|eapply IHc; eauto].
  destruct H1 as [T1 T2]. split; [eapply like_tagged; eauto|eauto].
Qed.

Lemma shows_like : forall e f V x x', like x x' -> shows e f V x -> shows e f V x'.
Proof.
  intros e f V x x' L [H1 [H2 [H3 [H4 H5]]]]. split; [inversion L; auto|]. split; [rewrite <- (like_type x x'); auto|].
  split; [unfold x_name; rewrite <- (like_attr0 x x'); auto|]. split; [eapply like_fits; eauto|].
  intros r k I. destruct (H5 r k I) as [xr [A1 [A2 [A3 A4]]]]. destruct (like_at r x x' xr L A1) as [xr' [B1 B2]]. exists xr'.
  split; auto. split.
  - pose proof (like_elems xr xr' B2) as F. rewrite A2 in F. inversion F. auto.
  - split; [rewrite <- (like_text xr xr'); auto|]. intros Sp. rewrite <- (A4 Sp). unfold asks_raw. rewrite A1, B1. rewrite (like_attr0 xr xr'); auto.
Qed.

(** ** Export then import *)

Lemma restorable_space : forall f raw raw' k off bb, raw' = raw \/ raw' = f_raw f -> restorable f raw k off bb -> restorable f raw' k off bb.
Proof.
  intros f raw raw' k off bb [->| ->] R; auto.
  assert (forall t u, word_restorable f raw t u -> word_restorable f (f_raw f) t u) as X.
  { intros t u [A B]. split; auto. destruct t; auto. destruct B as [l [n [B1 [B2 [B3 B4]]]]]. exists l, n. split; auto. split; auto. split; auto.
    destruct (f_raw f) eqn:F; auto. destruct (bytes =? 4); auto. }
  unfold restorable in *. destruct k; auto.
  - destruct R as [u [R1 R2]]. eauto.
  - destruct R as [C R]. split; auto. intros j Hj. destruct (R j Hj) as [u [R1 R2]]. eauto.
Qed.

Lemma space_known : forall e f V x raw pks, shows e f V x -> incl pks (params e) -> space_after x raw pks = raw \/ space_after x raw pks = f_raw f.
Proof.
  intros e f V x raw pks S. induction pks as [|[r k] pks IH] using rev_ind; intros I; [left; reflexivity|].
  unfold space_after. rewrite fold_left_app. cbn [fold_left fst snd]. fold (space_after x raw pks). destruct (spaced k) eqn:K.
  - right. destruct S as [_ [_ [_ [_ S]]]]. destruct (S r k) as [xr [_ [_ [_ S4]]]]; auto. apply I. apply in_or_app. simpl. auto.
  - apply IH. intros y Hy. apply I. apply in_or_app. auto.
Qed.

Section Restore.
Context (root : elem) (W : elem_wf root = true) (Fa : fields_apart root).
Context (p : pos) (e : elem) (E : elem_at root p = Some e) (x : xnode) (base : nat) (B : base <= offset root p) (hex raw : bool).
Context (f : fmt) (soff : list nat -> nat) (src : blackboard).
Context (S : shows e f (fun r k s => forall raw', (raw' = raw \/ raw' = f_raw f) -> (spaced k = true -> raw' = f_raw f) -> brings k raw' s (soff r) src) x).

Lemma restore : forall bb, room root p base bb ->
  exists raw' bb', import_settings e x (offset root p) base hex raw bb = Ok (true, raw', bb') /\ List.length bb' = List.length bb
    /\ (forall i, 8 * base <= i -> (forall r c, param_at root (p ++ r) c -> ~ owns root (p ++ r) i) -> bits_at base bb' i = bits_at base bb i)
    /\ forall r c, param_at root (p ++ r) c ->
         (forall g rest, leaf_get (e_kind c) g rest (offset root (p ++ r) - base) 0 bb' = leaf_get (e_kind c) g rest (soff r) 0 src)
         /\ value_ok (e_kind c) (offset root (p ++ r) - base) bb'.
Proof.
  intros bb R. destruct (import_runs root p e x base hex W E) as [pks [post [fit [E1 [F1 [F2 Im]]]]]].
  pose proof (proj1 (proj2 (proj2 (proj2 S)))) as Fits. apply F1 in Fits. subst fit. rewrite (F2 eq_refl), app_nil_r in E1. subst pks.
  destruct (run_frame root W p e E x base B hex (params e) raw bb (incl_refl _) R) as [ok [raw' [bb' [Run [L Fr]]]]].
  assert (forall pre r k post, params e = pre ++ (r, k) :: post -> forall o b, o + size_of_kind k <= List.length b ->
    exists b', leaf_set k (Fmt (space_after x raw (pre ++ [(r, k)])) hex) [] (text_at x r) o 0 b = Ok (true, b')
      /\ (forall g rest, leaf_get k g rest o 0 b' = leaf_get k g rest (soff r) 0 src) /\ value_ok k o b') as Br.
  { intros pre r k pst Ep o b Lb. assert (In (r, k) (params e)) as I by (rewrite Ep; apply in_or_app; simpl; auto).
    pose proof S as [_ [_ [_ [_ S5]]]]. destruct (S5 r k I) as [xr [X1 [_ [X3 X4]]]].
    assert (text_at x r = x_text xr) as -> by (unfold text_at; rewrite X1; auto).
    apply X3; auto.
    - apply (space_known e f _ x raw (pre ++ [(r, k)]) S). intros y Hy. rewrite Ep. apply in_app_or in Hy. apply in_or_app. simpl in *. tauto.
    - intros Sp. unfold space_after. rewrite fold_left_app. cbn [fold_left fst snd]. rewrite Sp. auto. }
  destruct ok.
  - exists raw', bb'. rewrite Im, Run. cbn [gate obind andb]. split; auto. split; auto. split.
    + intros i Hi N. apply Fr; auto. intros r k I. destruct (param_of_params root W p e E r k I) as [c [Pc _]]. eauto.
    + intros r c Pc. pose proof (params_of_param root W p e E r c Pc) as I. apply in_split in I. destruct I as [pre [pst Ep]].
      rewrite Ep in Run. destruct (run_reaches root W Fa p e E x base B hex pre r (e_kind c) pst raw bb true raw' bb') as [[r1 [b1 [_ X]]]|X]; auto.
      { rewrite Ep. apply incl_refl. } { rewrite <- Ep. apply params_NoDup. } { discriminate. }
      destruct X as [c' [ok1 [b1 [b2 [b3 [Pc' [_ [H1 [_ [_ [H6 H7]]]]]]]]]]]. destruct (R r c Pc) as [B2 Lr]. rewrite (storage_size_kind c (proj2 Pc)) in Lr.
      rewrite leaf_set_base in H1. destruct (Br pre r (e_kind c) pst Ep (offset root (p ++ r) - base) bb Lr) as [b1' [G1 [G2 G3]]].
      rewrite H1 in G1. inversion G1; subst ok1 b1'. pose proof (param_kind_wf root _ c W Pc) as Wk.
      assert (List.length b1 = List.length bb) as L1.
      { destruct (leaf_set_frame (e_kind c) (Fmt (space_after x raw (pre ++ [(r, e_kind c)])) hex) [] (text_at x r) (offset root (p ++ r) - base) bb Wk Lr) as [ok2 [b4 [A1 [A2 _]]]].
        rewrite H1 in A1. inversion A1; subst. auto. }
      assert (forall j, kind_bit (e_kind c) j = true -> mbit b1 (8 * (offset root (p ++ r) - base) + j) = mbit bb' (8 * (offset root (p ++ r) - base) + j)) as Kb.
      { intros j Hj. assert (owns root (p ++ r) (8 * offset root (p ++ r) + j)) as O by (apply (owns_kind_bit root _ c); eauto).
        specialize (H7 _ O). unfold bits_at in H7. replace (8 * offset root (p ++ r) + j - 8 * base) with (8 * (offset root (p ++ r) - base) + j) in H7 by lia. auto. }
      split.
      * intros g rest. rewrite <- G2. symmetry. apply leaf_get_local; auto; try lia. intros max K. rewrite K in G3. auto.
      * apply (value_ok_local root (p ++ r) c (offset root (p ++ r) - base) b1 (offset root (p ++ r) - base) bb' W Pc); auto;
          try (rewrite (storage_size_kind c (proj2 Pc)); lia).
        intros bit O. apply (owns_kind_bit root _ c _ Pc) in O. destruct O as [j [Hj Ej]]. replace bit with j by lia. auto.
  - exfalso. destruct (run_refused root W p e E x base B hex (params e) raw bb raw' bb' (incl_refl _) R Run) as [pre [r [k [pst [raw1 [b1 [b2 [Ep [Rp [Rf _]]]]]]]]]].
    assert (List.length b1 = List.length bb) as L1.
    { destruct (run_frame root W p e E x base B hex pre raw bb) as [o1 [r1 [b4 [A1 [A2 _]]]]]; auto.
      - rewrite Ep. intros y Hy. apply in_or_app. auto.
      - rewrite Rp in A1. inversion A1; subst. auto. }
    destruct (param_of_params root W p e E r k) as [c [Pc Kc]]; [rewrite Ep; apply in_or_app; simpl; auto|]. destruct (R r c Pc) as [B2 Lr].
    rewrite (storage_size_kind c (proj2 Pc)), Kc in Lr. rewrite leaf_set_base in Rf.
    destruct (Br pre r k pst Ep (offset root (p ++ r) - base) b1) as [b1' [G1 _]]; [lia|]. rewrite Rf in G1. discriminate.
Qed.
End Restore.
