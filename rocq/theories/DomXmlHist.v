(** Histories that also import settings and domains, and what holds in all the states they reach. *)
From Coq Require Import List Arith ZArith Bool Ascii String Lia.
From Verif Require Import Base BaseProofs TextModel CriterionModel CriterionSpec RuleModel RuleSpec RuleProofs ParamTypeModel BlackboardModel BitModel ArrayModel TreeModel TreeSpec
  TreeProofs MemSpec MemProofs SyncModel SyncProofs DomainModel DomainSpec DomainInv DomainsInv DomainApply DomainProofs MgrModel MgrSpec MgrProofs MgrSkel MgrFlow ValueSpec Demo
  XmlModel XmlSpec XmlMgr DomXmlModel DomXmlSpec DomXmlInv.
Import ListNotations.
Local Open Scope nat_scope.

(** ** Rules stay legal *)

Lemma legal_crits : forall cs cs' r, same_crits cs cs' -> legal cs r -> legal cs' r.
Proof.
  intros cs cs' r [L T] H. revert H. induction r as [c w v|all l IH] using rule_ind2; intros H; inversion H as [? k ? ? value Hk Hw Hv|? ? Hl]; subst.
  - specialize (T c). rewrite Hk in T. destruct (nth_error cs' c) as [k'|] eqn:E; [|discriminate]. cbn in T. inversion T as [T1].
    apply (legal_crit cs' c k' w v value); auto; rewrite T1; auto.
  - constructor. intros r Hr. apply IH; auto.
Qed.

Definition legal_comp_rule (cs : list criterion) (r : rule) : Prop := legal cs r /\ exists all l, r = RComp all l.

Lemma step_legal : forall y m c b m', system_ok y -> mgr_ok y m -> crits_ok (mg_crits m) -> step y m c = Ok (b, m') ->
  rules_legal (mg_crits m) (mg_doms m) -> rules_legal (mg_crits m') (mg_doms m').
Proof.
  intros y m c b m' Sy M Ck H R. pose proof (step_crits y m c b m' (proj1 Sy) M H) as Sc.
  refine (step_rules_any y m c b m' (legal_comp_rule (mg_crits m')) Sy M H _ _).
  - intros text r E. destruct (parse_text_legal (mg_crits m) text r Ck E) as [Lg C]. split; auto. apply (legal_crits (mg_crits m)); auto.
  - intros d k r Hd Hk Hr. destruct (R d k r Hd Hk Hr) as [Lg C]. split; auto. apply (legal_crits (mg_crits m)); auto.
Qed.

(** ** Start *)

(** Without a settings file, or from what the settings file gives: ParameterMgr.cpp:540-617 loadSettings,
    loadSettingsFromConfigFile: it is imported into no domains at all, with settings.  A refused file leaves no domain, and the
    start goes on if the client asked for that (setFailureOnFailedSettingsLoad). *)
Definition settings_file (y : system) (cs : list criterion) (doc : option xnode) (s : domains) : Prop :=
  match doc with
  | None => s = Domains [] [] 0
  | Some x => exists b, import_all y cs true x (Domains [] [] 0) = Ok (b, s)
  end.

Lemma file_loadable : forall y cs doc s bb, system_ok y -> crits_ok cs -> List.length bb = footprint (sy_root y) -> settings_file y cs doc s ->
  loadable y cs s bb /\ rules_legal cs s.
Proof.
  intros y cs doc s bb [St O] C L H.
  assert (fine y cs s) as [K R].
  { destruct doc as [x|]; cbn [settings_file] in H.
    - destruct H as [b0 H]. destruct (import_all_ok y cs true x (Domains [] [] 0) _ St O C (no_domains_ok y) H) as [Q|[b [s' [Q [F _]]]]]; [discriminate|]. inversion Q; subst. auto.
    - subst. split; [apply no_domains_ok|]. intros d c r []. }
  split; [|exact R]. split; [auto|]. split; [auto|]. split; [|auto]. intros d c r Hd Hc Hr. apply legal_in_scope. apply (R d c r Hd Hc Hr).
Qed.

(** ** Histories *)

(** Start from a settings file, then commands, setElementXML, imports of all the domains; imports of one domain that leave no
    setting undefined. *)
Inductive history (y : system) : mgr -> Prop :=
| hi_start : forall allowed cs doc s bb m, crits_ok cs -> List.length bb = footprint (sy_root y) -> settings_file y cs doc s ->
    load y allowed cs s bb = Ok m -> history y m
| hi_step : forall m c b m', history y m -> step y m c = Ok (b, m') -> history y m'
| hi_settings : forall m p x b m', history y m -> set_xml y p x m = Ok (b, m') -> history y m'
| hi_import : forall m ws doc b m', history y m -> import_domains y ws doc m = Ok (b, m') -> history y m'
| hi_import_one : forall m ws overwrite doc b m', history y m -> import_domain y ws overwrite doc m = Ok (b, m') -> all_valid (mg_doms m') -> history y m'.

Definition sound (y : system) (m : mgr) : Prop :=
  mgr_ok y m /\ rules_legal (mg_crits m) (mg_doms m) /\ crits_ok (mg_crits m).

Lemma legal_rules_ok : forall m, rules_legal (mg_crits m) (mg_doms m) -> rules_ok m.
Proof. intros m R d c r Hd Hc Hr. apply legal_in_scope. apply (R d c r Hd Hc Hr). Qed.

Lemma load_sound : forall y allowed cs s bb m, system_ok y -> loadable y cs s bb -> rules_legal cs s -> load y allowed cs s bb = Ok m -> sound y m.
Proof.
  intros y allowed cs s bb m Sy Lo R H. destruct (load_ok y allowed cs s bb Sy Lo) as [m1 [s1 [E1 [Ev [Ea [M0 [R0 [M1 [R1 C1]]]]]]]]].
  rewrite H in E1. inversion E1; subst m1. split; auto. split; auto. pose proof Lo as [Ck [K [_ L]]].
  destruct (ds_validate_ok y bb s (proj1 Sy) K L) as [s2 [V1 [_ [_ [_ F]]]]]. rewrite Ev in V1. inversion V1; subst s2.
  destruct (do_apply_inv y true [] _ m (proj1 Sy) M0 Ea) as [Ed [Ec _]]. rewrite Ed, Ec. cbn [mg_doms mg_crits].
  intros d c r Hd Hc Hr. cbn [ds_list] in Hd. apply in_map_iff in Hd. destruct Hd as [d1 [<- Hd1]].
  assert (In c (dm_configs d1)) as Hc1 by (unfold applied in Hc; destruct (dm_applicable cs d1); auto).
  destruct (Forall2_in_r _ _ _ _ _ d1 F Hd1) as [d0 [Hd0 [_ [_ [_ [_ [_ G]]]]]]]. destruct (Forall2_in_r _ _ _ _ _ c G Hc1) as [c0 [Hc0 [_ [_ [Er _]]]]].
  destruct (R d0 c0 r Hd0 Hc0 ltac:(congruence)) as [Lg Cm]. split; auto. apply (legal_crits cs); auto. split; [apply (crits_reset_nth _ 0)|apply crits_reset_nth].
Qed.

Lemma step_sound : forall y m c b m', system_ok y -> sound y m -> step y m c = Ok (b, m') -> sound y m'.
Proof.
  intros y m c b m' Sy [M [R C]] H. split; [|split].
  - destruct (step_ok y m c Sy M) as [[b2 [m2 [E M2]]]|[E _]]; rewrite H in E; inversion E; subst; auto.
  - apply (step_legal y m c b m'); auto.
  - apply (same_crits_ok (mg_crits m)); auto. apply (step_crits y m c b m'); auto. apply Sy.
Qed.

Lemma memory_sound : forall y m m', memory_only m m' -> List.length (mg_main m') = List.length (mg_main m) -> sound y m -> sound y m'.
Proof.
  intros y m m' E L [[K [V Lm]] [R C]]. unfold memory_only in E. assert (mg_doms m' = mg_doms m /\ mg_crits m' = mg_crits m) as [Ed Ec] by (rewrite E; destruct m; auto).
  unfold sound, mgr_ok. rewrite Ed, Ec, L. auto.
Qed.

Lemma set_xml_sound : forall y m p x b m', system_ok y -> sound y m -> set_xml y p x m = Ok (b, m') -> sound y m'.
Proof.
  intros y m p x b m' Sy So H. destruct (elem_at (sy_root y) p) as [e|] eqn:E.
  - destruct (set_xml_spec y m p e x Sy (proj2 (proj2 (proj1 So))) E) as [b2 [m2 [H2 [Mo [L _]]]]]. rewrite H in H2. inversion H2; subst. eapply memory_sound; eauto.
  - unfold set_xml in H. rewrite E in H. inversion H; subst. auto.
Qed.

(** The accepted domains, once validated. *)
Lemma validate_sound : forall y m s, system_ok y -> sound y m -> fine y (mg_crits m) s ->
  exists s', ds_validate y (mg_main m) s = Ok s' /\ sound y (with_doms m s').
Proof.
  intros y m s [St O] [[K [V L]] [R C]] [Ks Rs]. destruct (ds_validate_ok y (mg_main m) s St Ks L) as [s1 [E1 [K1 [V1 [_ F]]]]].
  exists s1. split; auto. split; [split; auto|]. split; [|auto]. cbn [mg_doms mg_crits with_doms]. intros d c r Hd Hc Hr.
  destruct (Forall2_in_r _ _ _ _ _ d F Hd) as [d0 [Hd0 [_ [_ [_ [_ [_ G]]]]]]]. destruct (Forall2_in_r _ _ _ _ _ c G Hc) as [c0 [Hc0 [_ [_ [Er _]]]]].
  apply (Rs d0 c0 r Hd0 Hc0). congruence.
Qed.

Lemma none_sound : forall y m s, sound y m -> fine y (mg_crits m) s -> ds_list s = [] -> sound y (with_doms m s).
Proof.
  intros y m s [[K [V L]] [R C]] [Ks Rs] E. split; [|split; [exact Rs|exact C]]. split; [exact Ks|]. split; [|exact L]. intros d c Hd. cbn [mg_doms with_doms] in Hd. rewrite E in Hd. destruct Hd.
Qed.

Lemma import_domains_ok : forall y m ws doc, system_ok y -> sound y m -> import_domains y ws doc m <> UB ->
  exists b m', import_domains y ws doc m = Ok (b, m') /\ m' = with_doms m (mg_doms m') /\ sound y m'
    /\ (mg_tuning m = false -> b = false) /\ (b = false -> m' = m \/ (mg_tuning m = true /\ ds_list (mg_doms m') = [])).
Proof.
  intros y m ws doc Sy So U. pose proof So as [[K [V L]] [R C]]. unfold import_domains, tuned in *.
  assert (m = with_doms m (mg_doms m)) as Em by (destruct m; auto).
  destruct (mg_tuning m) eqn:T; [|exists false, m; split; auto; split; auto; split; auto; split; auto].
  destruct doc as [x|]; [|exists false, m; split; auto; split; auto; split; auto; split; auto].
  destruct (import_all_ok y (mg_crits m) ws x (mg_doms m) _ (proj1 Sy) (proj2 Sy) C K eq_refl) as [Q|[b [s [Q [F N]]]]]; rewrite Q in *; [destruct (U eq_refl)|].
  cbn [obind fst snd] in *. destruct b.
  - destruct (validate_sound y m s Sy So F) as [s' [E' So']]. rewrite E'. cbn [obind]. exists true, (with_doms m s'). split; auto. split; auto. split; auto.
    split; [congruence|discriminate].
  - exists false, (with_doms m s). split; auto. split; auto. split; [apply none_sound; auto|]. split; [congruence|]. intros _. right. auto.
Qed.

Lemma import_domain_ok : forall y m ws overwrite doc b m', system_ok y -> sound y m -> import_domain y ws overwrite doc m = Ok (b, m') ->
  m' = with_doms m (mg_doms m') /\ fine y (mg_crits m) (mg_doms m') /\ (all_valid (mg_doms m') -> sound y m').
Proof.
  intros y m ws overwrite doc b m' Sy So H. pose proof So as [[K [V L]] [R C]]. unfold import_domain, tuned in H.
  assert (m = with_doms m (mg_doms m)) as Em by (destruct m; auto).
  assert (fine y (mg_crits m) (mg_doms m)) as F by (split; auto).
  destruct (mg_tuning m); [|inversion H; subst; auto].
  destruct doc as [x|]; [|inversion H; subst; auto]. unfold on_doms in H.
  destruct (import_one_ok y (mg_crits m) ws overwrite x (mg_doms m) _ (proj1 Sy) (proj2 Sy) C F eq_refl) as [Q|[[Q _]|[b2 [s [Q [Fs _]]]]]]; rewrite Q in H; try discriminate.
  cbn [obind fst snd] in H. inversion H; subst. cbn [mg_doms with_doms]. split; auto. split; auto. intros Va. destruct Fs as [Ks Rs]. split; [split; auto|]. split; auto.
Qed.

Lemma history_sound : forall y m, system_ok y -> history y m -> sound y m.
Proof.
  intros y m Sy H. induction H as [allowed cs doc s bb m Ck L F E|m c b m' H IH E|m p x b m' H IH E|m ws doc b m' H IH E|m ws ov doc b m' H IH E V].
  - destruct (file_loadable y cs doc s bb Sy Ck L F) as [Lo R]. eapply load_sound; eauto.
  - eapply step_sound; eauto.
  - eapply set_xml_sound; eauto.
  - destruct (import_domains_ok y m ws doc Sy IH) as [b2 [m2 [E2 [_ [So _]]]]]; [congruence|]. rewrite E in E2. inversion E2; subst. auto.
  - destruct (import_domain_ok y m ws ov doc b m' Sy IH E) as [_ [_ So]]. auto.
Qed.

Lemma sound_facts : forall y m, sound y m -> mgr_ok y m /\ rules_ok m /\ crits_ok (mg_crits m).
Proof. intros y m [M [R C]]. split; auto. split; auto. apply legal_rules_ok. auto. Qed.
