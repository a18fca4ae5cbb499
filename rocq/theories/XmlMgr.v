(** Proofs about the import of settings by the manager. *)
From Coq Require Import List Arith ZArith Bool Ascii String Lia.
From Verif Require Import Base BaseProofs TextModel ParamTypeModel ParamTypeSpec BlackboardModel BitModel BitProofs ArrayModel ArraySpec TreeModel TreeSpec TreeProofs MemSpec
  MemProofs LocalProofs SyncModel SyncProofs DomainModel DomainSpec MgrModel MgrSpec MgrProofs MgrFlow MgrProps ApplySpec ApplyProofs MapProofs ValueSpec ValueProofs
  XmlModel XmlSpec XmlLeaf XmlFlat XmlProofs XmlRestore.
Import ListNotations.
Local Open Scope nat_scope.

Lemma root_accepted_iff : forall e x, root_accepted e x = true <-> about_element e x.
Proof.
  intros e x. unfold root_accepted, about_element. rewrite andb_true_iff, str_eqb_eq. destruct (e_name e) eqn:N; [tauto|].
  rewrite str_eqb_eq. split; intros [H1 H2]; split; auto. destruct H2; congruence.
Qed.

Lemma fits_at : forall r e x c, fits e x -> elem_at e r = Some c -> exists xr, x_at x r = Some xr.
Proof.
  induction r as [|i r IH]; intros e x c F H; cbn [x_at]; [eauto|]. destruct e as [nm k cs]. cbn [elem_at e_children] in H.
  destruct (nth_error cs i) as [d|] eqn:Ed; [|discriminate]. apply fits_iff in F.
  destruct (nth_error (x_elems x) i) as [xd|] eqn:Ex.
  - pose proof (Forall2_nth_error _ _ _ _ _ F i d xd Ed Ex) as [_ Fd]. apply (IH d xd c); auto.
  - apply nth_error_None in Ex. apply f2_length in F. assert (i < List.length cs) by (apply nth_error_Some; congruence). lia.
Qed.

Lemma nodup_split : forall A (l1 l2 k1 k2 : list (list nat * A)) r a b, NoDup (map fst (l1 ++ (r, a) :: l2)) ->
  l1 ++ (r, a) :: l2 = k1 ++ (r, b) :: k2 -> l1 = k1 /\ a = b /\ l2 = k2.
Proof.
  intros A l1. induction l1 as [|z l1 IH]; intros l2 [|w k1] k2 r a b N H; cbn [app] in *.
  - inversion H; auto.
  - inversion H; subst. cbn [map fst] in N. inversion N; subst. exfalso. apply H2. rewrite map_app. apply in_or_app. right. simpl. auto.
  - inversion H; subst. cbn [map fst] in N. inversion N; subst. exfalso. apply H2. rewrite map_app. apply in_or_app. right. simpl. auto.
  - inversion H; subst. cbn [map] in N. inversion N; subst. destruct (IH l2 k1 k2 r a b) as [-> [-> ->]]; auto.
Qed.

Section Import.
Context (root : elem) (W : elem_wf root = true) (Fa : fields_apart root).
Context (p : pos) (e : elem) (E : elem_at root p = Some e) (x : xnode) (base : nat) (B : base <= offset root p) (hex raw : bool).

Definition texts_accepted (bb : blackboard) : Prop :=
  fits e x /\ forall r k raw' s, asked e x raw r k raw' s ->
    exists b1, leaf_set k (Fmt raw' hex) [] s (offset root (p ++ r)) base bb = Ok (true, b1).

Lemma import_spec : forall bb, room root p base bb ->
  exists ok raw' bb', import_settings e x (offset root p) base hex raw bb = Ok (ok, raw', bb') /\ List.length bb' = List.length bb
    /\ (ok = true <-> texts_accepted bb)
    /\ (forall i, 8 * base <= i -> (forall r c, param_at root (p ++ r) c -> ~ owns root (p ++ r) i) -> bits_at base bb' i = bits_at base bb i)
    /\ (ok = true -> forall r k raw2 s b1, asked e x raw r k raw2 s -> leaf_set k (Fmt raw2 hex) [] s (offset root (p ++ r)) base bb = Ok (true, b1) ->
          forall i, owns root (p ++ r) i -> bits_at base bb' i = bits_at base b1 i)
    /\ ((forall r c, param_at root (p ++ r) c -> value_ok (e_kind c) (offset root (p ++ r) - base) bb) ->
        forall r c, param_at root (p ++ r) c -> value_ok (e_kind c) (offset root (p ++ r) - base) bb').
Proof.
  intros bb R. destruct (import_runs root p e x base hex W E) as [pks [post [fit [E1 [F1 [F2 Im]]]]]].
  assert (incl pks (params e)) as Inc by (rewrite E1; intros z Hz; apply in_or_app; auto).
  destruct (run_frame root W p e E x base B hex pks raw bb Inc R) as [ok [raw' [bb' [Run [L Fr]]]]].
  exists (ok && fit), raw', bb'. rewrite Im, Run. cbn [gate obind]. split; auto. split; auto. split; [|split; [|split]].
  - split.
    + intros H. apply andb_true_iff in H. destruct H as [-> ->]. split; [apply F1; auto|]. intros r k raw2 s [pre [pst [xr [Ep [-> [Xr ->]]]]]].
      rewrite (F2 eq_refl), app_nil_r in E1. subst pks. rewrite Ep in Run.
      destruct (run_reaches root W Fa p e E x base B hex pre r k pst raw bb true raw' bb') as [[r1 [b1 [_ X]]]|X]; auto.
      { rewrite Ep. apply incl_refl. } { rewrite <- Ep. apply params_NoDup. } { discriminate. }
      destruct X as [c [ok1 [b1 [b2 [b3 [Pc [_ [H1 [_ [_ [H6 _]]]]]]]]]]]. unfold text_at in H1. rewrite Xr in H1. cbn [ox_text] in H1.
      destruct ok1; [eauto|]. destruct (H6 eq_refl). discriminate.
    + intros [F A]. apply F1 in F. subst fit. rewrite (F2 eq_refl), app_nil_r in E1. subst pks. rewrite andb_true_r. destruct ok; auto. exfalso.
      destruct (run_refused root W p e E x base B hex (params e) raw bb raw' bb' (incl_refl _) R Run) as [pre [r [k [pst [raw1 [b1 [b2 [Ep [Rp [Rf _]]]]]]]]]].
      rewrite Ep in Run. destruct (run_reaches root W Fa p e E x base B hex pre r k pst raw bb false raw' bb') as [[r1 [b4 [X _]]]|X]; auto.
      { rewrite Ep. apply incl_refl. } { rewrite <- Ep. apply params_NoDup. } { rewrite Rp in X. discriminate. }
      destruct X as [c [ok1 [b3 [b5 [b6 [Pc [_ [H1 [H2 [[r2 H3] _]]]]]]]]]]. rewrite Rp in H3. inversion H3; subst r2 b5. rewrite Rf in H2. inversion H2; subst ok1.
      destruct (fits_at r e x c) as [xr Xr]; [apply F1; auto|destruct Pc as [Pc _]; rewrite elem_at_app, E in Pc; auto|].
      destruct (A r k (space_after x raw (pre ++ [(r, k)])) (x_text xr)) as [b7 H7].
      { exists pre, pst, xr. auto. }
      unfold text_at in H1. rewrite Xr in H1. cbn [ox_text] in H1. rewrite H1 in H7. discriminate.
  - intros i Hi N. apply Fr; auto. intros r k I. destruct (param_of_params root W p e E r k (Inc _ I)) as [c [Pc _]]. eauto.
  - intros H. apply andb_true_iff in H. destruct H as [-> ->]. intros r k raw2 s b1 [pre [pst [xr [Ep [-> [Xr ->]]]]]] Hs.
    rewrite (F2 eq_refl), app_nil_r in E1. subst pks. rewrite Ep in Run.
    destruct (run_reaches root W Fa p e E x base B hex pre r k pst raw bb true raw' bb') as [[r1 [b4 [_ X]]]|X]; auto.
    { rewrite Ep. apply incl_refl. } { rewrite <- Ep. apply params_NoDup. } { discriminate. }
    destruct X as [c [ok1 [b4 [b2 [b3 [Pc [_ [H1 [_ [_ [_ H7]]]]]]]]]]]. unfold text_at in H1. rewrite Xr in H1. cbn [ox_text] in H1.
    rewrite Hs in H1. inversion H1; subst. auto.
  - intros V. apply (run_values root W Fa p e E x base B hex pks raw bb ok raw' bb' Inc R V Run).
Qed.
End Import.

(** ** The manager *)

Lemma main_room : forall y m p, elem_wf (sy_root y) = true -> List.length (mg_main m) = footprint (sy_root y) -> room (sy_root y) p 0 (mg_main m).
Proof.
  intros y m p W L r c Pc. split; [lia|]. rewrite Nat.sub_0_r, L, (storage_size_kind c (proj2 Pc)). apply param_storage_fits; auto.
Qed.

Lemma sync_pushed : forall y p m bb, system_ok y -> elem_at (sy_root y) p <> None -> mg_autosync m = true ->
  forall ok errs tr, sync_set y (syncer_set y p) bb (mg_trace m) = (ok, errs, tr) -> pushed y p m (with_trace (with_main m bb) tr) ok.
Proof.
  intros y p m bb [_ O] E A ok errs tr H. unfold pushed. rewrite A.
  destruct (C31_all_called y (syncer_set y p) bb (mg_trace m) ok errs tr H) as [evs [H1 [H2 [H3 [H4 _]]]]]. exists evs.
  split; auto. rewrite H2. split; [apply sorted_nodup, syncer_set_sorted|]. split; [intros s; apply serves_linked; auto|]. auto.
Qed.

Lemma set_xml_spec : forall y m p e x, system_ok y -> List.length (mg_main m) = footprint (sy_root y) -> elem_at (sy_root y) p = Some e ->
  exists b m', set_xml y p x m = Ok (b, m') /\ memory_only m m' /\ List.length (mg_main m') = List.length (mg_main m)
    /\ (doc_accepted y p e x m -> pushed y p m m' b
          /\ forall r k raw s bb, asked e x (mg_raw m) r k raw s -> leaf_set k (Fmt raw (mg_hex m)) [] s (offset (sy_root y) (p ++ r)) 0 (mg_main m) = Ok (true, bb) ->
               same_setting (sy_root y) (p ++ r) 0 (mg_main m') 0 bb)
    /\ (~ doc_accepted y p e x m -> b = false /\ mg_trace m' = mg_trace m)
    /\ (forall i, (forall r c, param_at (sy_root y) (p ++ r) c -> ~ owns (sy_root y) (p ++ r) i) -> mbit (mg_main m') i = mbit (mg_main m) i)
    /\ ((forall r c, param_at (sy_root y) (p ++ r) c -> value_ok (e_kind c) (offset (sy_root y) (p ++ r)) (mg_main m)) ->
        forall r c, param_at (sy_root y) (p ++ r) c -> value_ok (e_kind c) (offset (sy_root y) (p ++ r)) (mg_main m')).
Proof.
  intros y m p e x Sy L E. pose proof Sy as [[W Fa] O]. unfold set_xml. rewrite E.
  destruct (root_accepted e x) eqn:RA.
  - destruct (import_spec (sy_root y) W Fa p e E x 0 (Nat.le_0_l _) (mg_hex m) (mg_raw m) (mg_main m) (main_room y m p W L)) as [ok [raw' [bb' [Im [L1 [Ac [Fr [Se V]]]]]]]].
    rewrite Im. cbn [obind].
    assert (forall i, (forall r c, param_at (sy_root y) (p ++ r) c -> ~ owns (sy_root y) (p ++ r) i) -> mbit bb' i = mbit (mg_main m) i) as Fr2.
    { intros i N. specialize (Fr i ltac:(lia) N). unfold bits_at in Fr. rewrite Nat.mul_0_r, Nat.sub_0_r in Fr. auto. }
    assert ((forall r c, param_at (sy_root y) (p ++ r) c -> value_ok (e_kind c) (offset (sy_root y) (p ++ r)) (mg_main m)) ->
        forall r c, param_at (sy_root y) (p ++ r) c -> value_ok (e_kind c) (offset (sy_root y) (p ++ r)) bb') as V2.
    { intros H r c Pc. rewrite <- (Nat.sub_0_r (offset _ _)). apply V; auto. intros r2 c2 P2. rewrite Nat.sub_0_r. auto. }
    destruct ok.
    + assert (forall b m', (mg_main m' = bb' -> pushed y p m m' b -> doc_accepted y p e x m -> pushed y p m m' b
          /\ forall r k raw s bb, asked e x (mg_raw m) r k raw s -> leaf_set k (Fmt raw (mg_hex m)) [] s (offset (sy_root y) (p ++ r)) 0 (mg_main m) = Ok (true, bb) ->
               same_setting (sy_root y) (p ++ r) 0 (mg_main m') 0 bb)) as S2.
      { intros b m' Em Pu _. split; auto. intros r k raw s bb As Hs i Ow. rewrite Em. rewrite !Nat.mul_0_r, !Nat.sub_0_r.
        specialize (Se eq_refl r k raw s bb As Hs i Ow). unfold bits_at in Se. rewrite !Nat.mul_0_r, !Nat.sub_0_r in Se. auto. }
      assert (~ doc_accepted y p e x m -> False) as Na.
      { intros N. apply N. split; [apply root_accepted_iff; auto|]. apply Ac. auto. }
      destruct (mg_autosync m) eqn:Au.
      * destruct (sync_set y (syncer_set y p) bb' (mg_trace m)) as [[ok errs] tr] eqn:Sn. eexists. eexists. split; [reflexivity|]. split; [reflexivity|].
        split; auto. split; [apply S2; [reflexivity|eapply sync_pushed; eauto; congruence]|]. split; [intros N; destruct (Na N)|]. auto.
      * eexists. eexists. split; [reflexivity|]. split; [destruct m; reflexivity|]. split; auto. split; [apply S2; [reflexivity|unfold pushed; rewrite Au; auto]|].
        split; [intros N; destruct (Na N)|]. auto.
    + eexists. eexists. split; [reflexivity|]. split; [destruct m; reflexivity|]. split; auto. split.
      * intros [_ D]. apply Ac in D. discriminate.
      * split; auto.
  - eexists. eexists. split; [reflexivity|]. split; [destruct m; reflexivity|]. split; auto. split.
    + intros [D _]. apply root_accepted_iff in D. congruence.
    + split; auto.
Qed.
