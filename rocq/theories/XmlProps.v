(** Properties of the export and import of settings as XML. *)
From Coq Require Import List Arith ZArith QArith Qabs Bool Ascii String Lia.
From Verif Require Import Base BaseProofs TextModel TextSpec TextProofs RealModel RealSpec ParamTypeModel ParamTypeSpec BlackboardModel BitModel BitProofs ArrayModel ArraySpec TreeModel TreeSpec
  TreeProofs MemSpec MemProofs LocalProofs CriterionModel RuleModel SyncModel SyncProofs DomainModel DomainSpec MgrModel MgrSpec MgrProofs MgrSkel MgrFlow MgrProps ApplySpec ApplyProofs
  MapProofs ValueSpec ValueProofs Demo XmlDemo XmlModel XmlSpec XmlLeaf XmlFlat XmlProofs XmlRestore XmlMgr.
Import ListNotations.
Local Open Scope nat_scope.

Lemma shows_impl : forall e f (V V' : list nat -> ekind -> str -> Prop) x, shows e f V x ->
  (forall r k s, In (r, k) (params e) -> V r k s -> V' r k s) -> shows e f V' x.
Proof.
  intros e f V V' x [H1 [H2 [H3 [H4 H5]]]] Im. split; auto. split; auto. split; auto. split; auto.
  intros r k I. destruct (H5 r k I) as [xr [X1 [X2 [X3 X4]]]]. exists xr. split; auto.
Qed.

Lemma same_bits : forall b1 b2, List.length b1 = List.length b2 -> (forall i, mbit b1 i = mbit b2 i) -> b1 = b2.
Proof.
  intros b1 b2 L H. destruct (same_bytes_mbit 0 b1 0 b2 (List.length b1)) as [_ [_ S]]; [lia|lia|intros; apply H|].
  assert (forall i, nth_error b1 i = nth_error b2 i) as N.
  { intros i. destruct (Nat.lt_ge_cases i (List.length b1)) as [C|C]; [apply (S i C)|].
    rewrite (proj2 (nth_error_None b1 i)), (proj2 (nth_error_None b2 i)) by lia. auto. }
  clear H S. revert b2 L N. induction b1 as [|a b1 IH]; intros [|b b2] L N; try discriminate; auto.
  f_equal; [pose proof (N 0) as X; inversion X; auto|]. apply IH; auto. intros i. apply (N (S i)).
Qed.

Lemma below_dec : forall p q : list nat, above p q \/ ~ above p q.
Proof.
  induction p as [|i p IH]; intros q; [left; exists q; auto|]. destruct q as [|j q]; [right; intros [r H]; discriminate|].
  destruct (Nat.eq_dec i j) as [->|N].
  - destruct (IH q) as [[r ->]|H]; [left; exists r; auto|]. right. intros [r X]. apply H. exists r. inversion X. auto.
  - right. intros [r X]. inversion X. auto.
Qed.

(** C43. The settings exported from one state restore, in another one and from any document alike, all the exported values:
    every later reading of a parameter of the element, in any value space and format, shows what it showed before.  Nothing
    else changes.  [restorable] names the values whose text gives them back: see C43_raw_decimal for the value space in which
    it is almost all of them. *)
Theorem C43_round_trip : forall y m m2 p e, system_ok y -> reachable y m -> reachable y m2 -> elem_at (sy_root y) p = Some e ->
  (forall r c, param_at (sy_root y) (p ++ r) c -> restorable (mg_fmt m) (mg_raw m2) (e_kind c) (offset (sy_root y) (p ++ r)) (mg_main m)) ->
  exists x, get_xml y p m = Ok x
    /\ forall x', like x x' -> exists b m', set_xml y p x' m2 = Ok (b, m') /\ pushed y p m2 m' b /\ memory_only m2 m'
         /\ (forall q c path rest f, param_at (sy_root y) q c -> above p q -> param_of (sy_root y) path = Some (q, rest) ->
               access_get (sy_root y) f path 0 (mg_main m') = access_get (sy_root y) f path 0 (mg_main m))
         /\ (forall q c, param_at (sy_root y) q c -> ~ above p q -> same_setting (sy_root y) q 0 (mg_main m') 0 (mg_main m2)).
Proof.
  intros y m m2 p e Sy R1 R2 E Re. pose proof Sy as [[W Fa] O].
  destruct (reachable_ok y m Sy R1) as [[_ [_ L1]] _]. destruct (reachable_ok y m2 Sy R2) as [[_ [_ L2]] _].
  pose proof (bare_root (sy_root y) p e W E) as Ba.
  assert (forall r k, In (r, k) (params e) -> exists s, leaf_get k (mg_fmt m) [] (offset (sy_root y) (p ++ r)) 0 (mg_main m) = Ok s
    /\ forall raw', raw' = mg_raw m2 \/ raw' = f_raw (mg_fmt m) -> (spaced k = true -> raw' = f_raw (mg_fmt m)) -> brings k raw' s (offset (sy_root y) (p ++ r)) (mg_main m)) as Bk.
  { intros r k I. destruct (param_of_params (sy_root y) W p e E r k I) as [c [Pc <-]].
    pose proof (param_kind_wf _ _ c W Pc) as Wk. pose proof (param_storage_fits _ _ c W Pc) as Fit. rewrite <- L1 in Fit.
    destruct (leaf_back (e_kind c) (mg_fmt m) (mg_raw m2) (offset (sy_root y) (p ++ r)) (mg_main m) Wk Fit (Re r c Pc)) as [s [G _]].
    exists s. split; auto. intros raw' Hr Sp.
    destruct (leaf_back (e_kind c) (mg_fmt m) raw' (offset (sy_root y) (p ++ r)) (mg_main m) Wk Fit) as [s' [G' Br]].
    { apply (restorable_space _ (mg_raw m2)); auto. }
    rewrite G in G'. inversion G'; subst s'. destruct (spaced (e_kind c)); [rewrite Sp|]; auto. }
  unfold get_xml. rewrite E. destruct (export_shows e Ba (offset (sy_root y) p) 0 (mg_fmt m) (mg_main m)) as [x [Ex Sx]].
  { intros r k I. destruct (Bk r k I) as [s [G _]]. exists s. rewrite (item_off (sy_root y) p e E). auto. }
  exists x. split; auto. intros x' Lk. apply (shows_like _ _ _ x x' Lk) in Sx.
  assert (shows e (mg_fmt m) (fun r k s => forall raw', (raw' = mg_raw m2 \/ raw' = f_raw (mg_fmt m)) -> (spaced k = true -> raw' = f_raw (mg_fmt m)) ->
      brings k raw' s (offset (sy_root y) (p ++ r)) (mg_main m)) x') as Sb.
  { apply (shows_impl _ _ _ _ x' Sx). intros r k s I G. destruct (Bk r k I) as [s' [G' Br]]. rewrite (item_off (sy_root y) p e E) in G.
    rewrite G' in G. inversion G; subst. auto. }
  destruct (restore (sy_root y) W Fa p e E x' 0 (Nat.le_0_l _) (mg_hex m2) (mg_raw m2) (mg_fmt m) (fun r => offset (sy_root y) (p ++ r)) (mg_main m) Sb
    (mg_main m2) (main_room y m2 p W L2)) as [raw' [bb' [Im [Lb [Fr Get]]]]].
  assert (root_accepted e x' = true) as RA.
  { apply root_accepted_iff. destruct Sx as [_ [S2 [S3 _]]]. split; auto. }
  assert (forall m', mg_main m' = bb' ->
           (forall q c path rest f, param_at (sy_root y) q c -> above p q -> param_of (sy_root y) path = Some (q, rest) ->
               access_get (sy_root y) f path 0 (mg_main m') = access_get (sy_root y) f path 0 (mg_main m))
         /\ (forall q c, param_at (sy_root y) q c -> ~ above p q -> same_setting (sy_root y) q 0 (mg_main m') 0 (mg_main m2))) as End_.
  { intros m' ->. split.
    - intros q c path rest f Pc [r ->] Po. unfold access_get. rewrite Po, (proj1 Pc). destruct (Get r c Pc) as [G _]. specialize (G f rest).
      rewrite Nat.sub_0_r in G. auto.
    - intros q c Pc N i Ow. rewrite !Nat.mul_0_r, !Nat.sub_0_r. specialize (Fr i ltac:(lia)). unfold bits_at in Fr.
      rewrite !Nat.mul_0_r, !Nat.sub_0_r in Fr. apply Fr. intros r c2 P2 O2. apply (owns_apart (sy_root y) q (p ++ r) i W Fa); auto.
      apply (params_unrelated _ _ _ c c2 W Pc P2). intros Eq. apply N. exists r. auto. }
  unfold set_xml. rewrite E, RA, Im. cbn [obind]. destruct (mg_autosync m2) eqn:Au.
  - destruct (sync_set y (syncer_set y p) bb' (mg_trace m2)) as [[ok errs] tr] eqn:Sn. eexists. eexists. split; [reflexivity|].
    split; [eapply sync_pushed; eauto; congruence|]. split; [reflexivity|].
    apply End_. reflexivity.
  - eexists. eexists. split; [reflexivity|]. split; [unfold pushed; rewrite Au; auto|]. split; [destruct m2; reflexivity|].
    apply End_. reflexivity.
Qed.
Print Assumptions C43_round_trip.

(** C43. In the raw value space and the decimal format, the values of their types are all given back, provided that no
    enumeration has a negative number. *)
Theorem C43_raw_decimal : forall y m m2 p e, system_ok y -> reachable y m -> reachable y m2 -> elem_at (sy_root y) p = Some e ->
  mg_raw m = true -> mg_hex m = false ->
  (forall r c, param_at (sy_root y) (p ++ r) c -> value_ok (e_kind c) (offset (sy_root y) (p ++ r)) (mg_main m)
     /\ forall b ps len l n, e_kind c = KdParam (PEnum b ps) \/ e_kind c = KdArray (PEnum b ps) len -> In (l, n) ps -> (0 <= n <= width_hi true b)%Z) ->
  exists x, get_xml y p m = Ok x
    /\ forall x', like x x' -> exists b m', set_xml y p x' m2 = Ok (b, m') /\ pushed y p m2 m' b /\ memory_only m2 m'
         /\ (forall q c path rest f, param_at (sy_root y) q c -> above p q -> param_of (sy_root y) path = Some (q, rest) ->
               access_get (sy_root y) f path 0 (mg_main m') = access_get (sy_root y) f path 0 (mg_main m))
         /\ (forall q c, param_at (sy_root y) q c -> ~ above p q -> same_setting (sy_root y) q 0 (mg_main m') 0 (mg_main m2)).
Proof.
  intros y m m2 p e Sy R1 R2 E Raw Dec V. apply (C43_round_trip y m m2 p e); auto. intros r c Pc. destruct (V r c Pc) as [Vo En].
  assert (forall t u, (forall b ps l n, t = PEnum b ps -> In (l, n) ps -> (0 <= n <= width_hi true b)%Z) -> pt_wf t = true -> word_accepted t u -> word_restorable (mg_fmt m) (mg_raw m2) t u) as X.
  { intros t u Nn Wt A. split; auto. unfold mg_fmt. destruct t; auto.
    - destruct A as [l [n [I Eu]]]. exists l, n. split; auto. split; auto. cbn [f_raw f_hex]. rewrite Raw.
      pose proof (Nn _ _ _ _ eq_refl I) as [N1 N2]. split.
      + split; auto. unfold width_lo. pose proof (Z.pow_nonneg 2 (8 * Z.of_nat bytes - 1) ltac:(lia)). lia.
      + destruct (bytes =? 4); auto.
    - cbn [f_raw f_hex]. rewrite Raw. auto. }
  pose proof (param_kind_wf _ _ c (proj1 (proj1 Sy)) Pc) as Wk.
  unfold restorable. destruct (e_kind c) eqn:K; auto.
  - destruct Vo as [u [Rd A]]. exists u. split; auto. apply X; auto. intros b ps l n -> I. apply (En b ps 0 l n); auto.
  - split.
    + unfold cell_restorable, mg_fmt. cbn [f_raw]. rewrite Raw. destruct t; auto. discriminate.
    + intros j Hj. destruct (Vo j Hj) as [u [Rd A]]. exists u. split; auto. apply X; auto; [|destruct Wk; auto]. intros b ps l n -> I. apply (En b ps len l n); auto.
Qed.
Print Assumptions C43_raw_decimal.

(** C43. What an import does, whether it is accepted or not. *)
Theorem C43_import : forall y m p e x, system_ok y -> reachable y m -> elem_at (sy_root y) p = Some e ->
  exists b m', set_xml y p x m = Ok (b, m') /\ memory_only m m'
    /\ (doc_accepted y p e x m -> pushed y p m m' b
          /\ forall r k raw s bb, asked e x (mg_raw m) r k raw s -> leaf_set k (Fmt raw (mg_hex m)) [] s (offset (sy_root y) (p ++ r)) 0 (mg_main m) = Ok (true, bb) ->
               same_setting (sy_root y) (p ++ r) 0 (mg_main m') 0 bb)
    /\ (~ doc_accepted y p e x m -> b = false /\ mg_trace m' = mg_trace m)
    /\ (forall q c, param_at (sy_root y) q c -> ~ above p q -> same_setting (sy_root y) q 0 (mg_main m') 0 (mg_main m))
    /\ ((forall q c, param_at (sy_root y) q c -> value_ok (e_kind c) (offset (sy_root y) q) (mg_main m)) ->
        forall q c, param_at (sy_root y) q c -> value_ok (e_kind c) (offset (sy_root y) q) (mg_main m')).
Proof.
  intros y m p e x Sy R E. pose proof Sy as [[W Fa] O]. destruct (reachable_ok y m Sy R) as [[_ [_ L]] _].
  destruct (set_xml_spec y m p e x Sy L E) as [b [m' [H1 [H2 [H3 [H4 [H5 [H6 H7]]]]]]]]. exists b, m'.
  assert (forall q c, param_at (sy_root y) q c -> ~ above p q -> same_setting (sy_root y) q 0 (mg_main m') 0 (mg_main m)) as Fr.
  { intros q c Pc N i Ow. rewrite !Nat.mul_0_r, !Nat.sub_0_r. apply H6. intros r c2 P2 O2. apply (owns_apart (sy_root y) q (p ++ r) i W Fa); auto.
    apply (params_unrelated _ _ _ c c2 W Pc P2). intros Eq. apply N. exists r. auto. }
  split; auto. split; auto. split; auto. split; auto. split; auto. intros V q c Pc.
  destruct (below_dec p q) as [[r ->]|N]; [apply H7; auto|].
  apply (value_ok_local (sy_root y) q c (offset (sy_root y) q) (mg_main m) (offset (sy_root y) q) (mg_main m') W Pc); auto;
    try (rewrite ?H3, L, (storage_size_kind c (proj2 Pc)); apply param_storage_fits; auto).
  intros bit Ow. specialize (Fr q c Pc N _ Ow). rewrite !Nat.mul_0_r, !Nat.sub_0_r in Fr. auto.
Qed.
Print Assumptions C43_import.

(** C43. The command: refused out of the tuning mode and for an unknown path, the import of the element otherwise. *)
Theorem C43_command : forall y m path x b m', set_element_xml y path x m = Ok (b, m') ->
  (mg_tuning m = false \/ locate (sy_root y) path = None -> b = false /\ m' = m)
  /\ (forall p, mg_tuning m = true -> locate (sy_root y) path = Some p -> set_xml y p x m = Ok (b, m')).
Proof.
  intros y m path x b m' H. unfold set_element_xml, tuned in H. split.
  - intros [T|T]; rewrite T in H.
    + inversion H; auto.
    + destruct (mg_tuning m); inversion H; auto.
  - intros p T Lo. rewrite T, Lo in H. auto.
Qed.
Print Assumptions C43_command.

Lemma set_xml_form : forall y m p e x b m', system_ok y -> List.length (mg_main m) = footprint (sy_root y) -> elem_at (sy_root y) p = Some e ->
  doc_accepted y p e x m -> set_xml y p x m = Ok (b, m') ->
  if mg_autosync m then exists errs tr, sync_set y (syncer_set y p) (mg_main m') (mg_trace m) = (b, errs, tr) /\ m' = with_trace (with_main m (mg_main m')) tr
  else b = true /\ m' = with_main m (mg_main m').
Proof.
  intros y m p e x b m' Sy L E [A D] H. pose proof Sy as [[W Fa] O]. unfold set_xml in H. rewrite E in H. apply root_accepted_iff in A. rewrite A in H.
  destruct (import_spec (sy_root y) W Fa p e E x 0 (Nat.le_0_l _) (mg_hex m) (mg_raw m) (mg_main m) (main_room y m p W L)) as [ok [raw' [bb' [Im [L1 [Ac _]]]]]].
  rewrite Im in H. cbn [obind] in H. apply Ac in D. subst ok. destruct (mg_autosync m).
  - destruct (sync_set y (syncer_set y p) bb' (mg_trace m)) as [[ok errs] tr] eqn:Sn. inversion H; subst. exists errs, tr. split; auto.
  - inversion H; subst. auto.
Qed.

(** C43. An accepted import is the write of the resulting bytes of the element, so that all that holds in the states reached by
    commands holds after it. *)
Theorem C43_as_bytes : forall y m p e x b m', system_ok y -> reachable y m -> elem_at (sy_root y) p = Some e -> (forall t, e_kind e <> KdBit t) ->
  doc_accepted y p e x m -> set_xml y p x m = Ok (b, m') ->
  (exists bytes, get_bytes (sy_root y) p 0 (mg_main m') = Ok bytes /\ step y m (CHandleBytes p bytes) = Ok (b, m')) /\ reachable y m'.
Proof.
  intros y m p e x b m' Sy R E NB D H. pose proof Sy as [[W Fa] O]. destruct (reachable_ok y m Sy R) as [[_ [_ L]] _].
  destruct (set_xml_spec y m p e x Sy L E) as [b2 [m2 [H1 [_ [L2 [_ [_ [Fr _]]]]]]]]. rewrite H in H1. inversion H1; subst b2 m2. clear H1.
  assert (exists bytes, get_bytes (sy_root y) p 0 (mg_main m') = Ok bytes /\ step y m (CHandleBytes p bytes) = Ok (b, m')) as [bytes [G1 G2]].
  { destruct (get_set_bytes (sy_root y) p e (mg_main m') W ltac:(lia) E) as [bytes [G1 [_ G2]]]. exists bytes. split; auto.
    destruct (G2 (mg_main m) L) as [bb3 [G3 [L3 [I1 I2]]]].
    assert (storage_size e = footprint e) as Se by (unfold storage_size; destruct (e_kind e) eqn:K; auto; exfalso; apply (NB t); auto).
    assert (forall i, i < List.length (mg_main m) -> i < offset (sy_root y) p \/ offset (sy_root y) p + footprint e <= i ->
      nth_error (mg_main m) i = nth_error (mg_main m') i) as Out.
    { intros i Li Oi. destruct (same_bytes_mbit i (mg_main m) i (mg_main m') 1) as [_ [_ Sb]]; [lia|lia| |].
      - intros j Hj. symmetry. apply Fr. intros r c Pc Ow. pose proof (owns_range (sy_root y) (p ++ r) c _ W (proj1 Pc) Ow) as Rg.
        assert (above p (p ++ r)) as Ab by (exists r; auto).
        destruct (storage_above (sy_root y) p (p ++ r) e c W Ab E (proj1 Pc)) as [S1 S2]. lia.
      - specialize (Sb 0 ltac:(lia)). rewrite Nat.add_0_r in Sb. auto. }
    assert (bb3 = mg_main m') as ->.
    { apply list_ext. intros i. destruct (Nat.lt_ge_cases i (List.length (mg_main m))) as [Q|Q];
        [|rewrite (proj2 (nth_error_None bb3 i)), (proj2 (nth_error_None (mg_main m') i)) by lia; auto].
      destruct (Nat.lt_ge_cases i (offset (sy_root y) p)) as [C|C]; [rewrite I2 by lia; apply Out; lia|].
      destruct (Nat.lt_ge_cases i (offset (sy_root y) p + footprint e)) as [D'|D']; [apply I1; lia|]. rewrite I2 by lia. apply Out; lia. }
    pose proof (set_xml_form y m p e x b m' Sy L E D H) as Fm. cbn [step]. unfold handle_bytes. rewrite E, G3. destruct (mg_autosync m).
    - destruct Fm as [errs [tr [F1 F2]]]. rewrite F1. rewrite <- F2. auto.
    - destruct Fm as [-> F2]. rewrite <- F2. auto. }
  split; [eauto|]. destruct R as [m0 [cmds [bs [St Run]]]]. exists m0, (cmds ++ [CHandleBytes p bytes]), (bs ++ [b]). split; auto.
  rewrite run_app, Run. cbn [obind run fst snd]. rewrite G2. reflexivity.
Qed.
Print Assumptions C43_as_bytes.

(** ** Examples and counterexamples, on the system of XmlDemo.v *)

(** All that is below [p] satisfies [P] when the parameters listed do. *)
Lemma each_param : forall root p e (P : list nat -> ekind -> Prop), elem_wf root = true -> elem_at root p = Some e ->
  Forall (fun rk => P (p ++ fst rk) (snd rk)) (params e) -> forall r c, param_at root (p ++ r) c -> P (p ++ r) (e_kind c).
Proof.
  intros root p e P W E F r c Pc. rewrite Forall_forall in F. apply (F (r, e_kind c)). apply (params_of_param root W p e E r c Pc).
Qed.

Definition xd_other : mgr := xd_after (xd_sets ++ [CValueSpace true; CSetParameter (lit "/Sys/Sub/mix/fx") (lit "77"); CSetParameter (lit "/Sys/Sub/str") (lit "z")]).

Lemma letter_no_number : forall c s v, (96 < bval c)%Z -> ~ int_text (c :: s) v.
Proof.
  intros c s v Hc H. assert (forall d, ~ dec_digit c d) as Nd by (intros d [H1 H2]; lia).
  inversion H as [s' ds Nn HF|s' ds Nn HF|s' ds Nn HF|s' ds Nn HF]; subst.
  - inversion HF; subst. eapply Nd; eauto.
  - change (bval "+"%char) with 43%Z in Hc. lia.
  - change (bval "-"%char) with 45%Z in Hc. lia.
  - change (bval "0"%char) with 48%Z in Hc. lia.
Qed.

Lemma xd_literals : forall t, t = xd_enum \/ t = xd_signed -> forall b ps, t = PEnum b ps ->
  NoDup (map fst ps) /\ NoDup (map snd ps) /\ (forall l v, In (l, v) ps -> ~ In formfeed l /\ forall w, ~ int_text l w)
  /\ forall l v, In (l, v) ps -> l <> [] /\ forall c, In c l -> ~ In c array_delimiters.
Proof.
  intros t H b ps E. assert (ps = [(lit "off", 0%Z); (lit "on", 5%Z)] \/ ps = [(lit "none", 0%Z); (lit "minus", (-3)%Z)]) as P.
  { destruct H as [->| ->]; inversion E; auto. }
  clear - P.
  assert (forall l v, In (l, v) ps -> In l [lit "off"; lit "on"; lit "none"; lit "minus"]) as L.
  { intros l v I. destruct P as [->| ->]; simpl in I; destruct I as [I|[I|[]]]; inversion I; subst; simpl; auto. }
  split; [|split; [|split]].
  - destruct P as [->| ->]; simpl; repeat constructor; simpl; intuition discriminate.
  - destruct P as [->| ->]; simpl; repeat constructor; simpl; intuition discriminate.
  - intros l v I. apply L in I. simpl in I. destruct I as [<-|[<-|[<-|[<-|[]]]]];
      (split; [simpl; intuition discriminate|intros w; apply letter_no_number; reflexivity]).
  - intros l v I. apply L in I. simpl in I. destruct I as [<-|[<-|[<-|[<-|[]]]]]; (split; [discriminate|]); intros c Hc Hd; simpl in Hc, Hd;
      repeat (destruct Hc as [<-|Hc]; [repeat (destruct Hd as [Hd|Hd]; [discriminate|]); contradiction|]); contradiction.
Qed.

Lemma xd_enum_word : forall t raw l n b ps u, t = xd_enum \/ t = xd_signed -> t = PEnum b ps -> In (l, n) ps -> u = word_of b n ->
  (width_lo true b <= n <= width_hi true b)%Z -> word_restorable (Fmt false false) raw t u.
Proof.
  intros t raw l n b ps u H -> I Eu R. destruct (xd_literals _ H b ps eq_refl) as [A [B [C D]]]. split.
  - exists l, n. auto.
  - exists l, n. cbn [f_raw]. split; auto.
Qed.

Lemma xd_restorable : forall r c, param_at (sy_root xd) ([0] ++ r) c ->
  restorable (mg_fmt xd_state) (mg_raw xd_other) (e_kind c) (offset (sy_root xd) ([0] ++ r)) (mg_main xd_state).
Proof.
  apply (each_param (sy_root xd) [0] (match elem_at xd_tree [0] with Some e => e | None => xd_tree end)
    (fun q k => restorable (mg_fmt xd_state) (mg_raw xd_other) k (offset (sy_root xd) q) (mg_main xd_state))).
  - vm_compute. reflexivity.
  - vm_compute. reflexivity.
  - assert (params (match elem_at xd_tree [0] with Some e => e | None => xd_tree end)
      = [([0; 0], KdParam (PInt true 2 (-50) 50)); ([0; 1], KdParam (PFix 2 3 4)); ([0; 2], KdParam xd_enum); ([0; 3], KdParam (PFloat (-100) 100)); ([0; 4], KdArray xd_enum 2);
         ([1], KdParam xd_signed); ([2; 0], KdBit (BitType 0 3 7 1)); ([2; 1], KdBit (BitType 4 2 3 1)); ([3], KdString 4)]) as -> by (vm_compute; reflexivity).
    assert (mg_fmt xd_state = Fmt false false) as -> by (vm_compute; reflexivity).
    repeat (apply Forall_cons; [cbn [fst snd app]|]); [..|apply Forall_nil].
    + exists 65529%Z. split; [vm_compute; reflexivity|]. split; [|exact I]. exists (-7)%Z. split; [lia|reflexivity].
    + exists 6144%Z. split; [vm_compute; reflexivity|]. split; [exact I|]. right. exists 24%Z. split; [unfold q_range; simpl; lia|reflexivity].
    + exists 5%Z. split; [vm_compute; reflexivity|]. apply (xd_enum_word _ _ (lit "on") 5%Z 1 [(lit "off", 0%Z); (lit "on", 5%Z)]); auto; [simpl; auto|vm_compute; intuition discriminate].
    + exists 1048576000%Z. split; [vm_compute; reflexivity|]. split.
      * split; [vm_compute; reflexivity|]. split; vm_compute; discriminate.
      * cbn [f_raw]. exists 25%Z, (-2)%Z. split; [vm_compute; reflexivity|vm_compute; reflexivity].
    + split; [intros _; apply (xd_literals xd_enum ltac:(auto) _ _ eq_refl)|]. intros [|[|j]] Hj; [| |lia].
      * exists 5%Z. split; [vm_compute; reflexivity|]. apply (xd_enum_word _ _ (lit "on") 5%Z 1 [(lit "off", 0%Z); (lit "on", 5%Z)]); auto; [simpl; auto|vm_compute; intuition discriminate].
      * exists 0%Z. split; [vm_compute; reflexivity|]. apply (xd_enum_word _ _ (lit "off") 0%Z 1 [(lit "off", 0%Z); (lit "on", 5%Z)]); auto; [simpl; auto|vm_compute; intuition discriminate].
    + exists 253%Z. split; [vm_compute; reflexivity|]. apply (xd_enum_word _ _ (lit "minus") (-3)%Z 1 [(lit "none", 0%Z); (lit "minus", (-3)%Z)]); auto; [simpl; auto|vm_compute; intuition discriminate].
    + exists 32%Z. split; [vm_compute; reflexivity|vm_compute; discriminate].
    + exists 32%Z. split; [vm_compute; reflexivity|vm_compute; discriminate].
    + exists 3. split; [lia|vm_compute; reflexivity].
Qed.

Example C43_round_trip_nonvacuous : system_ok xd /\ reachable xd xd_state /\ reachable xd xd_other
  /\ (exists e, elem_at (sy_root xd) [0] = Some e)
  /\ (forall r c, param_at (sy_root xd) ([0] ++ r) c -> restorable (mg_fmt xd_state) (mg_raw xd_other) (e_kind c) (offset (sy_root xd) ([0] ++ r)) (mg_main xd_state))
  /\ mg_main xd_state <> mg_main xd_other.
Proof.
  split; [exact xd_ok|]. split; [apply xd_reachable; vm_compute; reflexivity|]. split; [apply xd_reachable; vm_compute; reflexivity|].
  split; [vm_compute; eauto|]. split; [exact xd_restorable|vm_compute; discriminate].
Qed.

(** The document of the component "mix" in raw decimal form, imported by the other state. *)
Definition xd_raw : mgr := xd_after (xd_sets ++ [CValueSpace true]).
Example C43_raw_decimal_nonvacuous : reachable xd xd_raw /\ mg_raw xd_raw = true /\ mg_hex xd_raw = false
  /\ (forall r c, param_at (sy_root xd) ([0; 0] ++ r) c -> value_ok (e_kind c) (offset (sy_root xd) ([0; 0] ++ r)) (mg_main xd_raw)
     /\ forall b ps len l n, e_kind c = KdParam (PEnum b ps) \/ e_kind c = KdArray (PEnum b ps) len -> In (l, n) ps -> (0 <= n <= width_hi true b)%Z)
  /\ exists x b m', get_xml xd [0; 0] xd_raw = Ok x /\ set_xml xd [0; 0] x xd_start = Ok (b, m') /\ b = true
       /\ get_parameter xd (lit "/Sys/Sub/mix/fl") m' = Ok (lit "0.25").
Proof.
  split; [apply xd_reachable; vm_compute; reflexivity|]. split; [vm_compute; reflexivity|]. split; [vm_compute; reflexivity|]. split.
  - apply (each_param (sy_root xd) [0; 0] (match elem_at xd_tree [0; 0] with Some e => e | None => xd_tree end)
      (fun q k => value_ok k (offset (sy_root xd) q) (mg_main xd_raw)
         /\ forall b ps len l n, k = KdParam (PEnum b ps) \/ k = KdArray (PEnum b ps) len -> In (l, n) ps -> (0 <= n <= width_hi true b)%Z)).
    + vm_compute. reflexivity.
    + vm_compute. reflexivity.
    + assert (params (match elem_at xd_tree [0; 0] with Some e => e | None => xd_tree end)
        = [([0], KdParam (PInt true 2 (-50) 50)); ([1], KdParam (PFix 2 3 4)); ([2], KdParam xd_enum); ([3], KdParam (PFloat (-100) 100)); ([4], KdArray xd_enum 2)])
        as -> by (vm_compute; reflexivity).
      assert (forall b ps len l n, KdParam xd_enum = KdParam (PEnum b ps) \/ KdArray xd_enum 2 = KdArray (PEnum b ps) len -> In (l, n) ps -> (0 <= n <= width_hi true b)%Z) as En.
      { intros b ps len l n H. assert (b = 1 /\ ps = [(lit "off", 0%Z); (lit "on", 5%Z)]) as [-> ->] by (destruct H as [H|H]; inversion H; auto).
        intros [I|[I|[]]]; inversion I; subst; vm_compute; intuition discriminate. }
      repeat (apply Forall_cons; [cbn [fst snd app]; split|]); try (apply Forall_nil);
        try (intros b ps len l n [H|H]; discriminate); try (intros b ps len l n [H|H]; [apply (En b ps len l n); auto|discriminate]);
        try (intros b ps len l n [H|H]; [discriminate|apply (En b ps len l n); auto]).
      * exists 65529%Z. split; [vm_compute; reflexivity|]. exists (-7)%Z. split; [lia|reflexivity].
      * exists 6144%Z. split; [vm_compute; reflexivity|exact I].
      * exists 5%Z. split; [vm_compute; reflexivity|]. exists (lit "on"), 5%Z. split; [simpl; auto|reflexivity].
      * exists 1048576000%Z. split; [vm_compute; reflexivity|]. split; [vm_compute; reflexivity|]. split; vm_compute; discriminate.
      * intros [|[|j]] Hj; [| |lia]; [exists 5%Z|exists 0%Z]; (split; [vm_compute; reflexivity|]);
          [exists (lit "on"), 5%Z|exists (lit "off"), 0%Z]; (split; [simpl; auto|reflexivity]).
  - eexists. eexists. eexists. split; [vm_compute; reflexivity|]. split; [vm_compute; reflexivity|]. split; vm_compute; reflexivity.
Qed.

(** A document for the component "mix", given the ValueSpace attributes and the texts. *)
Definition xd_doc (spaces : list (str * str)) (a fx en fl ens : str) : xnode :=
  XElem (lit "ParameterBlock") [(lit "Name", lit "mix")]
    [XElem (lit "IntegerParameter") [(lit "Name", lit "a")] [XText a];
     XElem (lit "FixedPointParameter") ((lit "Name", lit "fx") :: spaces) [XText fx];
     XText (lit " ");
     XElem (lit "EnumParameter") [(lit "Name", lit "en")] [XText en];
     XElem (lit "FloatingPointParameter") ((lit "Name", lit "fl") :: spaces) [XText fl];
     XElem (lit "EnumParameter") [(lit "Name", lit "ens")] [XText ens]].

Example C43_import_nonvacuous : exists m',
  set_xml xd [0; 0] (xd_doc [] (lit "3") (lit "-2.25") (lit "off") (lit "1e1") (lit "off on")) xd_state = Ok (true, m')
  /\ get_parameter xd (lit "/Sys/Sub/mix/fx") m' = Ok (lit "-2.2500") /\ get_parameter xd (lit "/Sys/Sub/mix/ens/1") m' = Ok (lit "on")
  /\ get_parameter xd (lit "/Sys/Sub/str") m' = Ok (lit "abc") /\ map ev_syncer (mg_trace m') = map ev_syncer (mg_trace xd_state) ++ [3].
Proof. eexists. split; [vm_compute; reflexivity|]. repeat split; vm_compute; reflexivity. Qed.

(** The hypotheses of C43_import and C43_as_bytes on this document. *)
Example C43_as_bytes_nonvacuous : doc_accepted xd [0; 0] (match elem_at xd_tree [0; 0] with Some e => e | None => xd_tree end)
  (xd_doc [] (lit "3") (lit "-2.25") (lit "off") (lit "1e1") (lit "off on")) xd_state.
Proof.
  destruct (import_spec (sy_root xd) (proj1 (proj1 xd_ok)) (proj2 (proj1 xd_ok)) [0; 0] (match elem_at xd_tree [0; 0] with Some e => e | None => xd_tree end) eq_refl
    (xd_doc [] (lit "3") (lit "-2.25") (lit "off") (lit "1e1") (lit "off on")) 0 (Nat.le_0_l _) (mg_hex xd_state) (mg_raw xd_state) (mg_main xd_state)) as [ok [raw' [bb' [Im [_ [Ac _]]]]]].
  { apply main_room; vm_compute; reflexivity. }
  assert (ok = true) as ->.
  { match type of Im with ?l = _ => assert (match l with Ok (b, _, _) => b | _ => false end = true) as X by (vm_compute; reflexivity) end.
    rewrite Im in X. auto. }
  split; [split; [reflexivity|right; reflexivity]|]. apply Ac. auto.
Qed.

Example C43_command_nonvacuous : locate (sy_root xd) (lit "/Sys/Sub/mix") = Some [0; 0] /\ mg_tuning xd_state = true
  /\ mg_tuning xd_start = false /\ locate (sy_root xd) (lit "/Sys/Sub/none") = None.
Proof. repeat split; vm_compute; reflexivity. Qed.

(** C43, false in the real value space: a floating point parameter is exported with six digits, and its import, accepted, gives
    another value. *)
Theorem C43_real_float_refuted : exists y m p x m', system_ok y /\ reachable y m /\ mg_raw m = false
  /\ get_xml y p m = Ok x /\ set_xml y p x m = Ok (true, m')
  /\ handle_get y p (HKVal KDbl) m' <> handle_get y p (HKVal KDbl) m.
Proof.
  exists xd, (xd_after (xd_sets ++ [CSetParameter (lit "/Sys/Sub/mix/fl") (lit "0.3333333")])), [0; 0; 3]. eexists. eexists.
  split; [exact xd_ok|]. split; [apply xd_reachable; vm_compute; reflexivity|]. split; [vm_compute; reflexivity|].
  split; [vm_compute; reflexivity|]. split; [vm_compute; reflexivity|]. vm_compute. discriminate.
Qed.
Print Assumptions C43_real_float_refuted.

(** C43, false in the raw value space and the hexadecimal format: the exported text of a small floating point
    number, padded before its prefix, is refused. *)
Theorem C43_raw_hex_refuted : exists y m p x m', system_ok y /\ reachable y m /\ mg_raw m = true /\ mg_hex m = true
  /\ get_xml y p m = Ok x /\ set_xml y p x m = Ok (false, m').
Proof.
  exists xd, (xd_after (xd_sets ++ [CValueSpace true; CSetParameter (lit "/Sys/Sub/mix/fl") (lit "43691"); COutputFormat true])), [0; 0; 3]. eexists. eexists.
  split; [exact xd_ok|]. split; [apply xd_reachable; vm_compute; reflexivity|]. split; [vm_compute; reflexivity|]. split; [vm_compute; reflexivity|].
  split; [vm_compute; reflexivity|]. vm_compute; reflexivity.
Qed.
Print Assumptions C43_raw_hex_refuted.

(** C43, false for a negative number of an enumeration: exported in the raw value space, refused in the real one (the document
    does not tell its value space). *)
Theorem C43_enum_space_refuted : exists y m m2 p x m', system_ok y /\ reachable y m /\ step y m (CValueSpace false) = Ok (true, m2)
  /\ get_xml y p m = Ok x /\ set_xml y p x m2 = Ok (false, m').
Proof.
  exists xd, (xd_after (xd_sets ++ [CValueSpace true])). eexists. exists [0; 1]. eexists. eexists.
  split; [exact xd_ok|]. split; [apply xd_reachable; vm_compute; reflexivity|]. split; [vm_compute; reflexivity|]. split; [vm_compute; reflexivity|]. vm_compute; reflexivity.
Qed.
Print Assumptions C43_enum_space_refuted.

(** C43, false for the values out of the declared range that raw bytes, or the memory at start, give to a parameter. *)
Theorem C43_out_of_range_refuted : exists y m p x m', system_ok y /\ reachable y m /\ get_xml y p m = Ok x /\ set_xml y p x m = Ok (false, m').
Proof.
  exists xd, (xd_after (xd_sets ++ [CHandleBytes [0; 0; 0] [byte_of 100; byte_of 0]])), [0; 0; 0]. eexists. eexists.
  split; [exact xd_ok|]. split; [apply xd_reachable; vm_compute; reflexivity|]. split; [vm_compute; reflexivity|]. vm_compute; reflexivity.
Qed.
Print Assumptions C43_out_of_range_refuted.

(** ** C63 *)

(** An import that is refused has changed the parameters before the refused text. *)
Theorem C63_atomic_refuted : exists y m p x m' path, system_ok y /\ reachable y m /\ set_xml y p x m = Ok (false, m')
  /\ get_parameter y path m' <> get_parameter y path m /\ mg_trace m' = mg_trace m.
Proof.
  exists xd, xd_state, [0; 0], (xd_doc [] (lit "3") (lit "1.5") (lit "bad") (lit "0.25") (lit "off on")). eexists. exists (lit "/Sys/Sub/mix/a").
  split; [exact xd_ok|]. split; [apply xd_reachable; vm_compute; reflexivity|]. split; [vm_compute; reflexivity|]. split; [vm_compute; discriminate|vm_compute; reflexivity].
Qed.
Print Assumptions C63_atomic_refuted.

(** The text of a parameter is read in the value space of the parameter before it: the same text for the enumeration "neg" is
    accepted or refused depending on an attribute of the floating point parameter before. *)
Definition xd_leak (spaces : list (str * str)) : xnode :=
  XElem (lit "Subsystem") [(lit "Name", lit "Sub")]
    [xd_doc spaces (lit "0") (lit "0") (lit "off") (lit "0") (lit "off off");
     XElem (lit "EnumParameter") [(lit "Name", lit "neg")] [XText (lit "253")];
     XElem (lit "BitParameterBlock") [(lit "Name", lit "bits")]
       [XElem (lit "BitParameter") [(lit "Name", lit "low")] [XText (lit "0")]; XElem (lit "BitParameter") [(lit "Name", lit "high")] [XText (lit "0")]];
     XElem (lit "StringParameter") [(lit "Name", lit "str")] [XText []]].
Theorem C63_space_leaks_refuted : exists y m p m1 m2, system_ok y /\ reachable y m
  /\ set_xml y p (xd_leak [(lit "ValueSpace", lit "Raw")]) m = Ok (true, m1) /\ set_xml y p (xd_leak []) m = Ok (false, m2)
  /\ get_parameter y (lit "/Sys/Sub/mix/fl") m1 = get_parameter y (lit "/Sys/Sub/mix/fl") m2.
Proof.
  exists xd, xd_state, [0]. eexists. eexists. split; [exact xd_ok|]. split; [apply xd_reachable; vm_compute; reflexivity|].
  split; [vm_compute; reflexivity|]. split; [vm_compute; reflexivity|]. vm_compute; reflexivity.
Qed.
Print Assumptions C63_space_leaks_refuted.
