(** Properties of the export and import of configurable domains as XML. *)
From Coq Require Import List Arith ZArith QArith Bool Ascii String Lia Permutation.
From Verif Require Import Base BaseProofs TextModel TextSpec CriterionModel CriterionSpec RuleModel RuleSpec RuleProofs RealModel RealSpec ParamTypeModel ParamTypeSpec BlackboardModel BitModel ArrayModel TreeModel TreeSpec
  TreeProofs MemSpec MemProofs SyncModel SyncProofs DomainModel DomainSpec DomainProofs AreaProofs DomainInv DomainApply DomainsInv MgrModel MgrSpec MgrProofs MgrSkel MgrFlow ConfigProps ValueSpec Demo
  XmlDemo XmlModel XmlSpec XmlMgr XmlProps DomXmlModel DomXmlSpec DomXmlInv DomXmlRound DomXmlHist.
Import ListNotations.
Local Open Scope nat_scope.

(** ** After validation *)

Definition kept (y : system) (main : blackboard) (full : bool) (d d' : domain) : Prop :=
  if full then same_domain y d d' else same_skeleton y main d d'.

Lemma validated_brought : forall y main full l s s', structure_ok y -> domains_ok y s -> List.length main = footprint (sy_root y) ->
  Forall2 (brought y full) l (ds_list s) -> ds_validate y main s = Ok s' -> Forall2 (kept y main full) l (ds_list s').
Proof.
  intros y main full l s s' St K L B E. destruct (ds_validate_ok y main s St K L) as [s2 [E2 [_ [V [_ F]]]]]. rewrite E in E2. inversion E2; subst s2.
  assert (Forall (fun d => Forall config_valid (dm_configs d)) (ds_list s')) as V'.
  { apply Forall_forall. intros d Hd. apply Forall_forall. intros c Hc. apply (V d c Hd Hc). }
  clear V E E2 K. revert F B V'. generalize (ds_list s) (ds_list s'). clear. intros l2 l3 F. revert l.
  induction F as [|d d2 l2 l3 [_ [H1 [H2 [_ [H4 G]]]]] F IH]; intros l B V; inversion B as [|d0 ? l0 ? [B1 [B2 [B3 [_ B5]]]] Br]; subst; inversion V as [|? ? Vd Vr]; subst; constructor; auto.
  unfold kept. destruct full.
  - split; [congruence|]. split; [congruence|]. split; [congruence|]. clear -G B5. revert G B5. generalize (dm_configs d0) (dm_configs d) (dm_configs d2).
    intros c0 c1 c2 G. revert c0. induction G as [|c c' c1 c2 [_ [G1 [G2 G3]]] G IHc]; intros c0 B; inversion B as [|k ? k0 ? [T A] Br]; subst; constructor; auto.
    destruct T as [T1 T2]. split; [congruence|]. split; [congruence|]. clear -A G3. revert A. generalize (cf_areas k). induction G3 as [|a a' l1 l2 [P1 [P2 [P3 P4]]] G IH]; intros l A; inversion A as [|b ? bs ? Sb Ar]; subst; constructor; auto.
    destruct Sb as [S1 [S2 S3]]. rewrite (P3 S2). split; auto.
  - split; [congruence|]. split; [congruence|]. split; [congruence|]. clear -G B5 Vd. revert G B5 Vd. generalize (dm_configs d0) (dm_configs d) (dm_configs d2) (dm_elems d0).
    intros c0 c1 c2 ps G. revert c0. induction G as [|c c' c1 c2 [_ [G1 [G2 G3]]] G IHc]; intros c0 B V; inversion B as [|k ? k0 ? [T A] Br]; subst; inversion V as [|? ? Vc Vr]; subst; constructor; auto.
    destruct T as [T1 T2]. split; [congruence|]. split; [congruence|]. destruct A as [A1 A2]. subst ps. unfold config_valid in Vc. clear -A2 G3 Vc.
    revert Vc A2. induction G3 as [|a a' l1 l2 [P1 [P2 [P3 P4]]] G IH]; intros Vc A2; [constructor|].
    inversion A2; subst. inversion Vc; subst. cbn [map]. constructor; auto. split; auto. split; auto. intros i Ho. pose proof (P4 H1 i Ho) as Q. unfold abit in Q. rewrite P1 in Q. rewrite Q. f_equal. lia.
Qed.

Lemma kept_full : forall y main l l', Forall2 (kept y main true) l l' -> Forall2 (same_domain y) l l'.
Proof. intros y main l l' F. eapply Forall2_impl2; [|exact F]. intros d d' _ H. exact H. Qed.

Lemma import_domains_back : forall y m m2 ws wi, system_ok y -> names_ok (sy_root y) -> sound y m -> sound y m2 -> mg_tuning m2 = true ->
  same_criteria (mg_crits m) (mg_crits m2) -> distinguishable (mg_crits m) ->
  (forall d, In d (ds_list (mg_doms m)) -> exportable_as y (mg_crits m) (mg_fmt m) ws d) ->
  exists x, export_domains y ws m = Ok x
    /\ forall x', like x x' ->
         exists m', import_domains y wi (Some x') m2 = Ok (true, m') /\ m' = with_doms m2 (mg_doms m') /\ sound y m'
           /\ Forall2 (kept y (mg_main m2) (ws && wi)) (ds_list (mg_doms m)) (ds_list (mg_doms m')).
Proof.
  intros y m m2 ws wi Sy Nm [[K [V L]] [R C]] So2 T Sc D Ex. pose proof So2 as [[K2 [V2 L2]] [R2 C2]].
  destruct (import_all_back y (mg_crits m2) (mg_fmt m) ws (mg_doms m) (proj1 Sy) (proj2 Sy) Nm (distinguishable_same _ _ Sc D) K) as [x [E H]].
  { intros d Hd. apply (exportable_same y (mg_crits m)); auto. }
  exists x. split; [unfold export_domains; rewrite (domains_to_same y _ _ _ _ _ Sc); exact E|]. intros x' Lk.
  destruct (H x' wi (mg_doms m2) Lk K2) as [s [Ei [F B]]]. destruct (validate_sound y m2 s Sy So2 F) as [s' [Ev So']].
  exists (with_doms m2 s'). split; [|split; [destruct m2; auto|split; [exact So'|]]].
  - unfold import_domains, tuned. rewrite T, Ei. cbn [obind fst snd]. rewrite Ev. reflexivity.
  - cbn [mg_doms with_doms]. apply (validated_brought y (mg_main m2) (ws && wi) _ s s'); auto; [apply Sy|apply F].
Qed.

(** ** C50 *)

(** The domains exported with settings from one state and imported with settings into another: the import succeeds, whatever
    the domains there, and gives the same domains, in the same order, with the same names, awareness, elements in the same
    order, and configurations with the same names, rules and recorded texts.  Nothing but the domains changes.
    [distinguishable], [exportable]: see DomXmlSpec. *)
Theorem C50_round_trip : forall y m m2, system_ok y -> names_ok (sy_root y) -> history y m -> history y m2 -> mg_tuning m2 = true ->
  same_criteria (mg_crits m) (mg_crits m2) -> distinguishable (mg_crits m) ->
  (forall d, In d (ds_list (mg_doms m)) -> exportable y (mg_crits m) (mg_fmt m) d) ->
  exists x, export_domains y true m = Ok x
    /\ forall x', like x x' ->
         exists m', import_domains y true (Some x') m2 = Ok (true, m') /\ m' = with_doms m2 (mg_doms m') /\ history y m'
           /\ same_domains y (mg_doms m) (mg_doms m').
Proof.
  intros y m m2 Sy Nm H1 H2 T Sc D Ex.
  destruct (import_domains_back y m m2 true true Sy Nm (history_sound y m Sy H1) (history_sound y m2 Sy H2) T Sc D) as [x [E B]].
  { intros d Hd. apply exportable_any. auto. }
  exists x. split; auto. intros x' Lk. destruct (B x' Lk) as [m' [Ei [Em [_ F]]]]. exists m'. split; auto. split; auto. split.
  - eapply hi_import; [exact H2|exact Ei].
  - apply (kept_full y (mg_main m2)). exact F.
Qed.
Print Assumptions C50_round_trip.

(** Without settings on either side, all the rest comes back, and the configurations record the values that the parameters
    have at the time of the import. *)
Theorem C50_without_settings : forall y m m2 ws wi, system_ok y -> names_ok (sy_root y) -> history y m -> history y m2 -> mg_tuning m2 = true ->
  same_criteria (mg_crits m) (mg_crits m2) -> distinguishable (mg_crits m) -> ws && wi = false ->
  (forall d, In d (ds_list (mg_doms m)) -> config_named d /\ (forall c, In c (dm_configs d) -> rule_exportable (mg_crits m) c)
     /\ (ws = true -> forall c, In c (dm_configs d) -> Forall (recorded_restorable y (mg_fmt m)) (cf_areas c))) ->
  exists x, export_domains y ws m = Ok x
    /\ forall x', like x x' ->
         exists m', import_domains y wi (Some x') m2 = Ok (true, m') /\ m' = with_doms m2 (mg_doms m') /\ history y m'
           /\ Forall2 (same_skeleton y (mg_main m2)) (ds_list (mg_doms m)) (ds_list (mg_doms m')).
Proof.
  intros y m m2 ws wi Sy Nm H1 H2 T Sc D Nf Ex.
  destruct (import_domains_back y m m2 ws wi Sy Nm (history_sound y m Sy H1) (history_sound y m2 Sy H2) T Sc D Ex) as [x [E B]].
  exists x. split; auto. intros x' Lk. destruct (B x' Lk) as [m' [Ei [Em [_ F]]]]. exists m'. split; auto. split; auto. split.
  - eapply hi_import; [exact H2|exact Ei].
  - rewrite Nf in F. exact F.
Qed.
Print Assumptions C50_without_settings.

Lemma brought_full : forall y d d', brought y true d d' -> same_domain y d d'.
Proof.
  intros y d d' [H1 [H2 [H3 [_ H5]]]]. split; auto. split; auto. split; auto. eapply Forall2_impl2; [|exact H5]. intros c c' _ [[T1 T2] F]. split; auto.
Qed.

(** One domain, imported next to others: it comes last; a domain with the same name goes away if that was asked, and otherwise
    the import is refused and changes no domain. *)
Theorem C50_single : forall y m m2 name d overwrite, system_ok y -> names_ok (sy_root y) -> history y m -> history y m2 -> mg_tuning m2 = true ->
  same_criteria (mg_crits m) (mg_crits m2) -> distinguishable (mg_crits m) ->
  ds_find name (mg_doms m) = Some d -> dm_name d = name -> exportable y (mg_crits m) (mg_fmt m) d ->
  exists x, export_domain y true name m = Ok x
    /\ forall x', like x x' ->
         exists b m', import_domain y true overwrite (Some x') m2 = Ok (b, m') /\ m' = with_doms m2 (mg_doms m')
           /\ ((b = true /\ exists l1 old l2 d', ds_list (mg_doms m2) = l1 ++ old ++ l2 /\ ds_list (mg_doms m') = l1 ++ l2 ++ [d'] /\ same_domain y d d'
                  /\ match ds_find name (mg_doms m2) with None => old = [] | Some d0 => old = [d0] /\ overwrite = true end)
               \/ (b = false /\ ds_list (mg_doms m') = ds_list (mg_doms m2) /\ overwrite = false /\ ds_find name (mg_doms m2) <> None)).
Proof.
  intros y m m2 name d ov Sy Nm H1 H2 T Sc D Fd Nd Ex. destruct (history_sound y m Sy H1) as [[K [V L]] [R C]].
  destruct (history_sound y m2 Sy H2) as [[K2 [V2 L2]] [R2 C2]].
  destruct (ds_find_split _ _ _ Fd) as [k1 [k2 [Ek _]]]. assert (In d (ds_list (mg_doms m))) as Id by (rewrite Ek; apply in_elt).
  destruct (import_one_back y (mg_crits m2) (mg_fmt m) true d (proj1 Sy) (proj2 Sy) Nm (distinguishable_same _ _ Sc D) (ds_domain _ _ K d Id)) as [x [E H]].
  { apply (exportable_same y (mg_crits m)); auto. apply exportable_any. auto. }
  exists x. split; [unfold export_domain; rewrite Fd, (domain_to_same y _ _ _ _ _ Sc); exact E|]. intros x' Lk.
  destruct (H x' true ov (mg_doms m2) Lk (conj K2 R2)) as [A1 [A2 A3]]. rewrite Nd in *. unfold import_domain, tuned, on_doms. rewrite T.
  destruct (ds_find name (mg_doms m2)) as [d0|] eqn:Ef.
  - destruct ov.
    + destruct (A2 d0 eq_refl eq_refl) as [s' [d' [l1 [l2 [Ei [El [El' B]]]]]]]. rewrite Ei. cbn [obind fst snd]. exists true, (with_doms m2 s'). split; auto. split; [destruct m2; auto|].
      left. split; auto. exists l1, [d0], l2, d'. cbn [mg_doms with_doms]. split; auto. split; auto. split; [apply brought_full; auto|auto].
    + destruct (A3 ltac:(discriminate) eq_refl) as [s' [Ei El]]. rewrite Ei. cbn [obind fst snd]. exists false, (with_doms m2 s'). split; auto. split; [destruct m2; auto|].
      right. cbn [mg_doms with_doms]. split; auto. split; auto. split; auto. discriminate.
  - destruct (A1 eq_refl) as [s' [d' [Ei [El B]]]]. rewrite Ei. cbn [obind fst snd]. exists true, (with_doms m2 s'). split; auto. split; [destruct m2; auto|].
    left. split; auto. exists (ds_list (mg_doms m2)), [], [], d'. cbn [mg_doms with_doms app]. rewrite app_nil_r. split; auto. split; auto. split; [apply brought_full; auto|auto].
Qed.
Print Assumptions C50_single.

(** Whatever the document: the import of all the domains ends, with a result and consistent domains, unless a node it needs is
    absent; with none left if the document is refused.  Nothing but the domains changes. *)
Theorem C50_any_document : forall y m ws x, system_ok y -> history y m ->
  import_domains y ws (Some x) m = UB
  \/ exists b m', import_domains y ws (Some x) m = Ok (b, m') /\ m' = with_doms m (mg_doms m') /\ history y m'
       /\ (b = false -> m' = m \/ ds_list (mg_doms m') = []).
Proof.
  intros y m ws x Sy H. pose proof (history_sound y m Sy H) as So.
  assert (import_domains y ws (Some x) m = UB \/ import_domains y ws (Some x) m <> UB) as [U|U] by (destruct (import_domains y ws (Some x) m); auto; right; discriminate); auto.
  right. destruct (import_domains_ok y m ws (Some x) Sy So U) as [b [m' [E [Em [_ [_ F]]]]]]. exists b, m'. split; auto. split; auto.
  split; [eapply hi_import; eauto|]. intros Q. destruct (F Q) as [->|[_ Z]]; auto.
Qed.
Print Assumptions C50_any_document.

(** A document with the nesting of the schemas is never the undefined case. *)
Theorem C50_shaped_document : forall y m ws x, system_ok y -> history y m -> domains_shaped x -> import_domains y ws (Some x) m <> UB.
Proof.
  intros y m ws x Sy H [Tx Sx]. pose proof (history_sound y m Sy H) as [[K [V L]] [R C]]. unfold import_domains, tuned. destruct (mg_tuning m); [|discriminate].
  destruct (no_domains_fine y (mg_crits m) (mg_doms m) K) as [F0 _].
  assert (import_all y (mg_crits m) ws x (mg_doms m) <> UB) as U.
  { unfold import_all. destruct (domains_root y x); [|discriminate].
    pose proof (domains_shaped_not_UB y (mg_crits m) ws (proj1 Sy) (proj2 Sy) C (x_elems x) _ F0 Sx) as U.
    destruct (domains_from_xml y (mg_crits m) ws (x_elems x) (ds_delete_all (mg_doms m))) as [[b s]| | |]; try discriminate; [|congruence].
    cbn [obind fst]. destruct b; discriminate. }
  destruct (import_all_ok y (mg_crits m) ws x (mg_doms m) _ (proj1 Sy) (proj2 Sy) C K eq_refl) as [Q|[b [s [Q [F _]]]]]; [congruence|]. rewrite Q. cbn [obind fst snd].
  destruct b; [|discriminate]. destruct (ds_validate_ok y (mg_main m) s (proj1 Sy) (proj1 F) L) as [s' [Ev _]]. rewrite Ev. discriminate.
Qed.
Print Assumptions C50_shaped_document.

(** Starting from a settings file: whatever it holds, the start ends in a state of the history, or the file is refused, or a
    node it needs is absent. *)
Theorem C50_start : forall y allowed cs x bb, system_ok y -> crits_ok cs -> List.length bb = footprint (sy_root y) ->
  import_all y cs true x (Domains [] [] 0) = UB
  \/ (exists s, import_all y cs true x (Domains [] [] 0) = Ok (false, s))
  \/ exists s m, import_all y cs true x (Domains [] [] 0) = Ok (true, s) /\ load y allowed cs s bb = Ok m /\ history y m.
Proof.
  intros y allowed cs x bb Sy Ck L.
  destruct (import_all_ok y cs true x (Domains [] [] 0) _ (proj1 Sy) (proj2 Sy) Ck (no_domains_ok y) eq_refl) as [Q|[b [s [Q _]]]]; [auto|]. right.
  destruct b; [|left; eauto]. right. destruct (file_loadable y cs (Some x) s bb Sy Ck L (ex_intro _ true Q)) as [Lo R]. destruct (load_ok y allowed cs s bb Sy Lo) as [m [_ [E _]]].
  exists s, m. split; auto. split; auto. eapply (hi_start y allowed cs (Some x)); eauto. exists true. exact Q.
Qed.
Print Assumptions C50_start.

(** Exported in the raw value space and the decimal format: the recorded values of their types all come back, provided that no
    enumeration has a negative number. *)
Theorem C50_raw_decimal : forall y m m2, system_ok y -> names_ok (sy_root y) -> history y m -> history y m2 -> mg_tuning m2 = true ->
  same_criteria (mg_crits m) (mg_crits m2) -> distinguishable (mg_crits m) -> mg_raw m = true -> mg_hex m = false ->
  (forall d, In d (ds_list (mg_doms m)) -> config_named d /\ forall c, In c (dm_configs d) -> rule_exportable (mg_crits m) c
     /\ forall a r e, In a (cf_areas c) -> param_at (sy_root y) (ar_pos a ++ r) e ->
          value_ok (e_kind e) (offset (sy_root y) (ar_pos a ++ r) - offset (sy_root y) (ar_pos a)) (ar_bb a)
          /\ forall b ps len l n, e_kind e = KdParam (PEnum b ps) \/ e_kind e = KdArray (PEnum b ps) len -> In (l, n) ps -> (0 <= n <= width_hi true b)%Z) ->
  exists x, export_domains y true m = Ok x
    /\ forall x', like x x' ->
         exists m', import_domains y true (Some x') m2 = Ok (true, m') /\ m' = with_doms m2 (mg_doms m') /\ history y m'
           /\ same_domains y (mg_doms m) (mg_doms m').
Proof.
  intros y m m2 Sy Nm H1 H2 T Sc D Raw Dec Ex. apply C50_round_trip; auto. intros d Hd. destruct (Ex d Hd) as [N H]. split; auto.
  intros c Hc. destruct (H c Hc) as [Re V]. split; auto. apply Forall_forall. intros a Ha r e Pe. destruct (V a r e Ha Pe) as [Vo En].
  assert (forall t u, (forall b ps l n, t = PEnum b ps -> In (l, n) ps -> (0 <= n <= width_hi true b)%Z) -> word_accepted t u -> word_restorable (mg_fmt m) false t u) as X.
  { intros t u Nn A. split; auto. unfold mg_fmt. destruct t; auto.
    - destruct A as [l [n [I Eu]]]. exists l, n. split; auto. split; auto. cbn [f_raw f_hex]. rewrite Raw.
      pose proof (Nn _ _ _ _ eq_refl I) as [N1 N2]. split.
      + split; auto. unfold width_lo. pose proof (Z.pow_nonneg 2 (8 * Z.of_nat bytes - 1) ltac:(lia)). lia.
      + destruct (bytes =? 4); auto.
    - cbn [f_raw f_hex]. rewrite Raw. auto. }
  unfold restorable. destruct (e_kind e) eqn:Ke; auto.
  - destruct Vo as [u [Rd A]]. exists u. split; auto. apply X; auto. intros b ps l n -> I. apply (En b ps 0 l n); auto.
  - split.
    + unfold cell_restorable, mg_fmt. cbn [f_raw]. rewrite Raw. destruct t; auto. discriminate.
    + intros j Hj. destruct (Vo j Hj) as [u [Rd A]]. exists u. split; auto. apply X; auto. intros b ps l n -> I. apply (En b ps len l n); auto.
Qed.
Print Assumptions C50_raw_decimal.

(** ** Examples *)

Definition dx_cmds : list cmd := xd_sets ++
  [CCreateDomain (lit "D"); CSequenceAware (lit "D") true; CAddElement (lit "D") (lit "/Sys/Sub/mix"); CAddElement (lit "D") (lit "/Sys/Sub/str");
   CCreateConfig (lit "D") (lit "Call"); CCreateConfig (lit "D") (lit "Rest");
   CSetRule (lit "D") (lit "Call") (lit "All{Mode Is Call,Any{Devices Includes HS}}");
   CSequence (lit "D") (lit "Rest") [lit "/Sys/Sub/str"];
   CSetParameter (lit "/Sys/Sub/mix/a") (lit "3"); CSave (lit "D") (lit "Rest");
   CCreateDomain (lit "E"); CAddElement (lit "E") (lit "/Sys/Sub/bits"); CCreateConfig (lit "E") (lit "On")].
Definition dx : mgr := xd_after dx_cmds.
Definition dx_other : mgr := xd_after [CTuning true []; CCreateDomain (lit "Z"); CAddElement (lit "Z") (lit "/Sys/Sub/mix")].

Lemma history_run : forall y cmds m bs m', history y m -> run y m cmds = Ok (bs, m') -> history y m'.
Proof.
  intros y cmds. induction cmds as [|c cmds IH]; intros m bs m' H E; cbn [run] in E; [inversion E; subst; auto|].
  destruct (step y m c) as [[b m1]| | |] eqn:Es; try discriminate. cbn [obind fst snd] in E. destruct (run y m1 cmds) as [[bs1 m2]| | |] eqn:Er; try discriminate.
  cbn [obind fst snd] in E. inversion E; subst. apply (IH m1 bs1); auto. eapply hi_step; eauto.
Qed.

Lemma xd_history : forall cmds, all_ok cmds = true -> history xd (xd_after cmds).
Proof.
  intros cmds H. unfold all_ok in H. unfold xd_after. destruct (run xd xd_start cmds) as [[bs m]| | |] eqn:E; try discriminate.
  apply (history_run xd cmds xd_start bs m); auto. apply (hi_start xd true demo_crits None (Domains [] [] 0) (initial_blackboard xd_tree)).
  - exact demo_crits_ok.
  - reflexivity.
  - reflexivity.
  - vm_compute. reflexivity.
Qed.

Lemma xd_names : names_ok xd_tree.
Proof. apply check_names_ok. vm_compute. reflexivity. Qed.

Lemma demo_distinguishable : distinguishable demo_crits.
Proof.
  intros [|[|i]] k H; [| |destruct i; discriminate]; inversion H; subst; (split; [discriminate|split; [|split]]).
  - intros [|[|j]] k' Hj En; [auto| |destruct j; discriminate]. inversion Hj; subst. discriminate.
  - exact (demo_crits_ok 0 _ eq_refl).
  - discriminate.
  - intros [|[|j]] k' Hj En; [|auto|destruct j; discriminate]. inversion Hj; subst. discriminate.
  - exact (demo_crits_ok 1 _ eq_refl).
  - intros _ l v [I|[I|[]]]; inversion I; subst; (split; [discriminate|]); vm_compute; intuition discriminate.
Qed.

(** The recorded settings of the example give themselves back. *)
Definition dx_bytes (l : list nat) : list ascii := map ascii_of_nat l.
Definition dx_call : area := Area [0; 0] (dx_bytes [249; 255; 0; 24; 5; 0; 0; 128; 62; 5; 0]) true.
Definition dx_rest : area := Area [0; 0] (dx_bytes [3; 0; 0; 24; 5; 0; 0; 128; 62; 5; 0]) true.
Definition dx_str : area := Area [0; 3] (dx_bytes [97; 98; 99; 0; 0]) true.
Definition dx_bits : area := Area [0; 2] (dx_bytes [32]) true.

Lemma dx_shape : map (fun d => (dm_name d, map (fun c => (cf_name c, cf_rule c, cf_areas c)) (dm_configs d))) (ds_list (mg_doms dx))
  = [(lit "D", [(lit "Call", Some (RComp true [RCrit 0 VIs 1; RComp false [RCrit 1 VIncludes 2]]), [dx_call; dx_str]); (lit "Rest", None, [dx_str; dx_rest])]);
     (lit "E", [(lit "On", None, [dx_bits])])].
Proof. vm_compute. reflexivity. Qed.

Lemma area_params : forall f a e, elem_at xd_tree (ar_pos a) = Some e ->
  Forall (fun rk => restorable f false (snd rk) (offset xd_tree (ar_pos a ++ fst rk) - offset xd_tree (ar_pos a)) (ar_bb a)) (params e) ->
  recorded_restorable xd f a.
Proof.
  intros f a e E F r c Pc. apply (each_param (sy_root xd) (ar_pos a) e (fun q k => restorable f false k (offset xd_tree q - offset xd_tree (ar_pos a)) (ar_bb a))); auto.
Qed.

Definition dx_mix (a : area) : Prop :=
  bb_read_int (ar_bb a) 2 2 = Ok 6144%Z /\ bb_read_int (ar_bb a) 1 4 = Ok 5%Z /\ bb_read_int (ar_bb a) 4 5 = Ok 1048576000%Z
  /\ bb_read_int (ar_bb a) 1 9 = Ok 5%Z /\ bb_read_int (ar_bb a) 1 10 = Ok 0%Z
  /\ exists v, (-50 <= v <= 50)%Z /\ bb_read_int (ar_bb a) 2 0 = Ok (word_of 2 v).

Lemma dx_mix_restorable : forall a, ar_pos a = [0; 0] -> dx_mix a -> recorded_restorable xd (Fmt false false) a.
Proof.
  intros [p bb va] Ep [H1 [H2 [H3 [H4 [H5 [v [Hv H6]]]]]]]. cbn [ar_pos ar_bb] in *. subst p.
  apply (area_params _ _ (match elem_at xd_tree [0; 0] with Some e => e | None => xd_tree end)); [vm_compute; reflexivity|]. cbn [ar_pos ar_bb].
  assert (params (match elem_at xd_tree [0; 0] with Some e => e | None => xd_tree end)
    = [([0], KdParam (PInt true 2 (-50) 50)); ([1], KdParam (PFix 2 3 4)); ([2], KdParam xd_enum); ([3], KdParam (PFloat (-100) 100)); ([4], KdArray xd_enum 2)])
    as -> by (vm_compute; reflexivity).
  repeat (apply Forall_cons; [cbn [fst snd]|]); [..|apply Forall_nil].
  - exists (word_of 2 v). split; [exact H6|]. split; [|exact I]. exists v. split; [lia|reflexivity].
  - exists 6144%Z. split; [exact H1|]. split; [exact I|]. right. exists 24%Z. split; [unfold q_range; simpl; lia|reflexivity].
  - exists 5%Z. split; [exact H2|]. apply (xd_enum_word _ _ (lit "on") 5%Z 1 [(lit "off", 0%Z); (lit "on", 5%Z)]); auto; [simpl; auto|vm_compute; intuition discriminate].
  - exists 1048576000%Z. split; [exact H3|]. split.
    + split; [vm_compute; reflexivity|]. split; vm_compute; discriminate.
    + cbn [f_raw]. exists 25%Z, (-2)%Z. split; [vm_compute; reflexivity|vm_compute; reflexivity].
  - split; [intros _; apply (xd_literals xd_enum ltac:(auto) _ _ eq_refl)|]. intros [|[|j]] Hj; [| |lia].
    + exists 5%Z. split; [exact H4|]. apply (xd_enum_word _ _ (lit "on") 5%Z 1 [(lit "off", 0%Z); (lit "on", 5%Z)]); auto; [simpl; auto|vm_compute; intuition discriminate].
    + exists 0%Z. split; [exact H5|]. apply (xd_enum_word _ _ (lit "off") 0%Z 1 [(lit "off", 0%Z); (lit "on", 5%Z)]); auto; [simpl; auto|vm_compute; intuition discriminate].
Qed.

Lemma dx_areas : Forall (recorded_restorable xd (Fmt false false)) [dx_call; dx_rest; dx_str; dx_bits].
Proof.
  repeat apply Forall_cons; [..|apply Forall_nil].
  - apply dx_mix_restorable; [reflexivity|]. do 5 (split; [vm_compute; reflexivity|]). exists (-7)%Z. split; [lia|vm_compute; reflexivity].
  - apply dx_mix_restorable; [reflexivity|]. do 5 (split; [vm_compute; reflexivity|]). exists 3%Z. split; [lia|vm_compute; reflexivity].
  - apply (area_params _ _ (Elem (lit "str") (KdString 4) [])); [vm_compute; reflexivity|].
    apply Forall_cons; [|apply Forall_nil]. exists 3. split; [lia|vm_compute; reflexivity].
  - apply (area_params _ _ (match elem_at xd_tree [0; 2] with Some e => e | None => xd_tree end)); [vm_compute; reflexivity|].
    assert (params (match elem_at xd_tree [0; 2] with Some e => e | None => xd_tree end) = [([0], KdBit (BitType 0 3 7 1)); ([1], KdBit (BitType 4 2 3 1))])
      as -> by (vm_compute; reflexivity).
    repeat (apply Forall_cons; [cbn [fst snd]|]); [..|apply Forall_nil]; (exists 32%Z; split; [vm_compute; reflexivity|vm_compute; discriminate]).
Qed.

Lemma dx_exportable : forall d, In d (ds_list (mg_doms dx)) -> exportable xd demo_crits (Fmt false false) d.
Proof.
  intros d Hd. pose proof dx_areas as F. inversion F as [|? ? A1 F1]; subst. inversion F1 as [|? ? A2 F2]; subst. inversion F2 as [|? ? A3 F3]; subst. inversion F3 as [|? ? A4 _]; subst.
  clear F F1 F2 F3. pose proof (in_map (fun d => (dm_name d, map (fun c => (cf_name c, cf_rule c, cf_areas c)) (dm_configs d))) _ _ Hd) as Hm. rewrite dx_shape in Hm. clear Hd.
  assert (forall c (l : list (str * option rule * list area)), map (fun c => (cf_name c, cf_rule c, cf_areas c)) (dm_configs d) = l -> In c (dm_configs d) -> In (cf_name c, cf_rule c, cf_areas c) l) as Ic.
  { intros c l <- I. apply (in_map (fun c => (cf_name c, cf_rule c, cf_areas c)) _ _ I). }
  assert (forall l : list (str * option rule * list area), map (fun c => (cf_name c, cf_rule c, cf_areas c)) (dm_configs d) = l -> map cf_name (dm_configs d) = map (fun z => fst (fst z)) l) as Nc.
  { intros l <-. rewrite map_map. reflexivity. }
  destruct Hm as [Hm|[Hm|[]]]; inversion Hm as [[En El]]; symmetry in El; split.
  - unfold config_named. rewrite (Nc _ El). cbn [map fst]. split; [repeat constructor; cbn; intuition discriminate|cbn; intuition discriminate].
  - intros c Hc. pose proof (Ic c _ El Hc) as [Q|[Q|[]]]; inversion Q as [[Q1 Q2 Q3]].
    + split.
      * intros r Hr. rewrite <- Q2 in Hr. inversion Hr; subst. split; [|eauto]. constructor. repeat apply Forall_cons; [..|apply Forall_nil].
        -- apply (wr_crit demo_crits 0 _ VIs 1 (lit "Call") eq_refl); [auto|simpl; auto].
        -- constructor. apply Forall_cons; [|apply Forall_nil]. apply (wr_crit demo_crits 1 _ VIncludes 2 (lit "HS") eq_refl); [auto|simpl; auto].
      * repeat constructor; auto.
    + split; [intros r Hr; congruence|]. repeat constructor; auto.
  - unfold config_named. rewrite (Nc _ El). cbn [map fst]. split; [repeat constructor; cbn; intuition discriminate|cbn; intuition discriminate].
  - intros c Hc. pose proof (Ic c _ El Hc) as [Q|[]]; inversion Q as [[Q1 Q2 Q3]].
    split; [intros r Hr; congruence|]. repeat constructor; auto.
Qed.

Example C50_round_trip_nonvacuous : names_ok (sy_root xd) /\ history xd dx /\ history xd dx_other /\ mg_tuning dx_other = true
  /\ same_criteria (mg_crits dx) (mg_crits dx_other) /\ distinguishable (mg_crits dx)
  /\ (forall d, In d (ds_list (mg_doms dx)) -> exportable xd (mg_crits dx) (mg_fmt dx) d)
  /\ exists x m', export_domains xd true dx = Ok x /\ import_domains xd true (Some x) dx_other = Ok (true, m')
       /\ map dm_name (ds_list (mg_doms m')) = [lit "D"; lit "E"]
       /\ get_recorded xd (lit "D") (lit "Rest") (lit "/Sys/Sub/mix/a") m' = Ok (lit "3")
       /\ get_parameter xd (lit "/Sys/Sub/mix/a") m' = Ok (lit "0").
Proof.
  split; [exact xd_names|]. split; [apply xd_history; vm_compute; reflexivity|]. split; [apply xd_history; vm_compute; reflexivity|].
  split; [vm_compute; reflexivity|]. split; [vm_compute; reflexivity|].
  assert (mg_crits dx = demo_crits) as -> by (vm_compute; reflexivity). assert (mg_fmt dx = Fmt false false) as -> by (vm_compute; reflexivity).
  split; [exact demo_distinguishable|]. split; [exact dx_exportable|].
  eexists. eexists. split; [vm_compute; reflexivity|]. split; [vm_compute; reflexivity|]. split; [vm_compute; reflexivity|]. split; vm_compute; reflexivity.
Qed.
