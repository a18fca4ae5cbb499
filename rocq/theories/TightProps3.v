(** More about settings documents. *)
From Coq Require Import List Arith ZArith Bool Ascii String Lia.
From Verif Require Import Base BaseProofs TextModel ParamTypeModel BlackboardModel BitModel ArrayModel TreeModel TreeSpec TreeProofs MemSpec CriterionModel CriterionSpec RuleModel RuleSpec
  SyncModel SyncProofs DomainModel DomainSpec DomainInv DomainApply DomainsInv DomainProofs MgrModel MgrSpec MgrProofs MgrSkel MgrFlow Demo ValueSpec XmlModel XmlSpec XmlDemo XmlMgr
  DomXmlModel DomXmlSpec DomXmlInv DomXmlHist DomXmlProps CatSpec DocSpec DocProofs DocProps ArrayProofs BlackboardProofs ValueProofs CommandSpec CommandProofs CapiModel CapiSpec CapiProofs CapiProps ApplyProps.
Import ListNotations.
Local Open Scope nat_scope.

(** The parts of a domain that is accepted: its awareness can be read; its first list of configurations holds nothing but
    configurations, each without a rule or with one that can be read. *)
Definition sound_domain (cs : list criterion) (d : xnode) : Prop :=
  x_type d = lit "ConfigurableDomain" /\ (exists a, aware_says d a)
  /\ forall pre c post, x_elems d = pre ++ c :: post -> x_type c = lit "Configurations" -> Forall (fun z => x_type z <> lit "Configurations") pre ->
       Forall (fun k => x_type k = lit "Configuration" /\ exists o, config_says cs k o) (x_elems c).

Lemma configs_sound : forall cs, crits_ok cs -> forall xs id l, configs_from_xml cs id xs = Ok l -> Forall (fun k => x_type k = lit "Configuration" /\ exists o, config_says cs k o) xs.
Proof.
  intros cs C xs. induction xs as [|x xs IH]; intros id l H; [constructor|]. cbn [configs_from_xml] in H.
  destruct (config_from_xml cs id x) as [c| | |] eqn:E; try discriminate. cbn [obind] in H. destruct (configs_from_xml cs (S id) xs) as [l'| | |] eqn:E'; try discriminate.
  constructor; [|exact (IH _ _ E')]. unfold config_from_xml in E. destruct (str_eqb (x_type x) (lit "Configuration")) eqn:T; [|exfalso; exact (misplaced_not_ok _ _ _ E)].
  apply str_eqb_eq in T. split; [exact T|]. destruct (x_elems x) as [|r more] eqn:Ex; [exists None; exact Ex|].
  destruct (str_eqb (x_type r) (lit "CompoundRule")) eqn:Tr; [|exfalso; exact (misplaced_not_ok _ _ _ E)].
  destruct (rule_from_xml cs r) as [r'| | |] eqn:Er; try discriminate. cbn [obind] in E. destruct more; [|discriminate]. exists (Some r'). exists r. split; [exact Ex|]. exact (proj1 (rule_from_says cs C r r') Er).
Qed.

Lemma first_child : forall t pre c post, x_type c = t -> Forall (fun z => x_type z <> t) pre -> find (fun z => str_eqb (x_type z) t) (pre ++ c :: post) = Some c.
Proof.
  intros t pre c post T F. induction F as [|z pre N F IH]; cbn [app find]; [rewrite T, str_eqb_refl; reflexivity|].
  destruct (str_eqb (x_type z) t) eqn:E; [apply str_eqb_eq in E; contradiction|exact IH].
Qed.

Lemma domain_sound : forall y cs ws aware id x at_ z, crits_ok cs -> domain_from_xml y cs ws aware id x at_ = Ok (true, z) -> forall pre c post, x_elems x = pre ++ c :: post -> x_type c = lit "Configurations" ->
  Forall (fun z => x_type z <> lit "Configurations") pre -> Forall (fun k => x_type k = lit "Configuration" /\ exists o, config_says cs k o) (x_elems c).
Proof.
  intros y cs ws aware id x at_ z C H pre c post Ex Tc Fp. unfold domain_from_xml in H. unfold child_or_last at 1 in H. rewrite Ex, (first_child _ _ _ _ Tc Fp) in H. cbn [obind] in H.
  destruct (configs_from_xml cs 0 (x_elems c)) as [l| | |] eqn:E; try discriminate. exact (configs_sound cs C _ _ _ E).
Qed.

Lemma domains_sound : forall y cs ws, crits_ok cs -> forall xs s s', domains_from_xml y cs ws xs s = Ok (true, s') -> Forall (sound_domain cs) xs.
Proof.
  intros y cs ws C xs. induction xs as [|x xs IH]; intros s s' H; [constructor|]. cbn [domains_from_xml] in H.
  destruct (str_eqb (x_type x) (lit "ConfigurableDomain")) eqn:T.
  - apply str_eqb_eq in T. destruct (aware_from_xml x) as [a|] eqn:A; [|discriminate]. destruct (domain_from_xml y cs ws a (ds_fresh s) x (ds_att s)) as [[ok [d at_]]| | |] eqn:E; try discriminate.
    cbn [obind] in H. destruct ok; [|discriminate]. constructor; [|exact (IH _ _ H)]. split; [exact T|]. split; [exists a; exact (proj1 (aware_from_says x a) A)|]. exact (domain_sound _ _ _ _ _ _ _ _ C E).
  - destruct (misplaced (x_type x)) as [b| | |] eqn:M; try discriminate. exfalso. exact (misplaced_not_ok _ _ _ M).
Qed.

(** Any document at all, whatever its nesting: one that is accepted is about the system, has nothing but domains at its first level, and these
    have readable parts.  So an element of another type, a rule about an unknown criterion or an awareness that is not a boolean are
    never skipped over. *)
Theorem C72_accepted : forall y m ws x m', system_ok y -> history y m -> import_domains y ws (Some x) m = Ok (true, m') ->
  x_type x = lit "ConfigurableDomains" /\ about_system y x /\ Forall (sound_domain (mg_crits m)) (x_elems x).
Proof.
  intros y m ws x m' Sy Hh H. pose proof (history_sound y m Sy Hh) as [_ [_ C]]. unfold import_domains, tuned in H. destruct (mg_tuning m); [|discriminate].
  unfold import_all in H. destruct (domains_root y x) eqn:R; [|discriminate]. destruct (domains_from_xml y (mg_crits m) ws (x_elems x) (ds_delete_all (mg_doms m))) as [[b s]| | |] eqn:E; try discriminate.
  cbn [obind fst snd] in H. destruct b; cbn [obind fst snd] in H; [|discriminate]. unfold domains_root in R. apply andb_true_iff in R. destruct R as [R1 R2].
  split; [apply str_eqb_eq; exact R1|]. split; [|exact (domains_sound y _ ws C _ _ _ E)].
  unfold about_system. destruct (e_name (sy_root y)); [left; reflexivity|right; apply str_eqb_eq; exact R2].
Qed.
Print Assumptions C72_accepted.

(** One domain alone: the same. *)
Theorem C72_accepted_single : forall y m ws overwrite x m', system_ok y -> history y m -> import_domain y ws overwrite (Some x) m = Ok (true, m') -> sound_domain (mg_crits m) x.
Proof.
  intros y m ws overwrite x m' Sy Hh H. pose proof (history_sound y m Sy Hh) as [_ [_ C]]. unfold import_domain, tuned in H. destruct (mg_tuning m); [|discriminate].
  unfold on_doms, import_one in H. destruct (str_eqb (x_type x) (lit "ConfigurableDomain")) eqn:T; [|discriminate]. apply str_eqb_eq in T.
  destruct (aware_from_xml x) as [a|] eqn:A; [|discriminate]. destruct (domain_from_xml y (mg_crits m) ws a _ x _) as [[ok [d at_]]| | |] eqn:E; try discriminate.
  cbn [obind] in H. destruct ok; [|discriminate]. split; [exact T|]. split; [exists a; exact (proj1 (aware_from_says x a) A)|]. exact (domain_sound _ _ _ _ _ _ _ _ C E).
Qed.
Print Assumptions C72_accepted_single.

(** A document with an element of another type after a domain that can be read: refused; without it, accepted. *)
Example C72_accepted_nonvacuous : system_ok xd /\ history xd dx
  /\ (exists m', import_domains xd true (Some (ax_domains [ax_domain "true" "All" "-9"])) dx = Ok (true, m') /\ List.length (ds_list (mg_doms m')) = 1)
  /\ (exists m', import_domains xd true (Some (ax_domains [ax_domain "true" "All" "-9"; XElem (lit "Comment") [] []])) dx = Ok (false, m') /\ ds_list (mg_doms m') = [])
  /\ (exists m', import_domain xd true true (Some (ax_domain "true" "All" "-9")) dx = Ok (true, m')).
Proof.
  split; [exact xd_ok|]. split; [apply xd_history; vm_compute; reflexivity|]. split; [eexists; split; vm_compute; reflexivity|]. split; [eexists; split; vm_compute; reflexivity|].
  eexists. vm_compute. reflexivity.
Qed.

(** ** The getters of handles *)

(** The numbers that a parameter is read as. *)
Definition number_of (t : ptype) (u : ukind) : Prop :=
  match t, u with
  | PInt _ _ _ _, (KUInt | KInt) | PBool, (KBool | KUInt) | PEnum _ _, KInt | PFix _ _ _, KDbl | PFloat _ _, KDbl => True
  | _, _ => False
  end.
(** What a handle on a parameter can be asked for: a text of any scalar and texts of any array; numbers of its type; of a bit
    field, an unsigned number, and a boolean if it has one bit. *)
Definition read_as (k : ekind) (h : hkind) : Prop :=
  match k, h with
  | KdParam t, HKVal u => number_of t u
  | KdArray t n, HKVals u => n <> 0 /\ number_of t u
  | KdBit t, HKVal KBool => bt_size t = 1%Z
  | KdBit t, HKVal KUInt => True
  | (KdParam _ | KdBit _ | KdString _), HKStr => True
  | KdArray _ n, HKStrs => n <> 0
  | _, _ => False
  end.

Lemma number_reads : forall t u off bb, off + pt_size t <= List.length bb ->
  (number_of t u -> exists v, param_get_val t u off bb = Ok v) /\ (~ number_of t u -> param_get_val t u off bb = Err).
Proof.
  intros t u off bb L. unfold param_get_val. rewrite bb_read_int_fits by exact L. cbn [obind]. destruct t, u; cbn [from_bb_val number_of]; split; intros N; try contradiction; eauto; destruct N; exact I.
Qed.

Lemma numbers_read : forall t u n off bb, off + n * pt_size t <= List.length bb ->
  (number_of t u -> exists v, array_get_vals t u n off bb = Ok v) /\ (n <> 0 -> ~ number_of t u -> array_get_vals t u n off bb = Err).
Proof.
  intros t u n. induction n as [|n IH]; intros off bb L; cbn [array_get_vals Nat.mul] in *; [split; [eauto|contradiction]|].
  destruct (number_reads t u off bb) as [A B]; [lia|]. destruct (IH (off + pt_size t) bb) as [A' _]; [lia|]. split.
  - intros N. destruct (A N) as [v ->]. destruct (A' N) as [r ->]. cbn [obind]. eauto.
  - intros _ N. rewrite (B N). reflexivity.
Qed.

Lemma texts_read : forall t n off bb, off + n * pt_size t <= List.length bb -> exists v, array_get_list t (Fmt false false) n off bb = Ok v.
Proof.
  intros t n. induction n as [|n IH]; intros off bb L; cbn [array_get_list Nat.mul] in *; [eauto|].
  destruct (param_get_quiet t (Fmt false false) off bb) as [s ->]; [intros X; discriminate X|lia|]. destruct (IH (off + pt_size t) bb) as [r ->]; [lia|]. cbn [obind]. eauto.
Qed.

(** In every state, a handle gives a value exactly for the numbers and texts that its parameter has; everything else is an error, never
    more. *)
Theorem C49_reads : forall y m p h, system_ok y -> reachable_typed y m ->
  ((exists v, handle_get y p h m = Ok v) <-> exists e, param_at (sy_root y) p e /\ read_as (e_kind e) h)
  /\ ((exists v, handle_get y p h m = Ok v) \/ handle_get y p h m = Err).
Proof.
  intros y m p h Sy R.
  assert (G : forall e, elem_at (sy_root y) p = Some e -> is_param (e_kind e) = true ->
     (read_as (e_kind e) h -> exists v, handle_get y p h m = Ok v) /\ (~ read_as (e_kind e) h -> handle_get y p h m = Err) /\ (read_as (e_kind e) h \/ ~ read_as (e_kind e) h)).
  { intros e E Ip. assert (Pa : param_at (sy_root y) p e) by (split; assumption). pose proof (fits_read y m p e Sy R Pa) as Ft. unfold handle_get. rewrite E. unfold check_get, is_array. rewrite Ip. cbn [andb].
    destruct (e_kind e) as [| | | | |t|t|t len|max] eqn:Ek; cbn [is_param] in Ip; try discriminate Ip; cbn [array_length size_of_kind] in *.
    - assert (Rd : bb_read_int (mg_main m) (bt_block t) (offset (sy_root y) p) = Ok (le_decode (slice (mg_main m) (offset (sy_root y) p) (bt_block t)))) by (apply bb_read_int_fits; simpl in Ft; lia).
      destruct h as [u| |u|]; cbn [hkind_array Nat.eqb negb Bool.eqb handle_read read_as].
      + unfold bitparam_get_val. rewrite Rd. cbn [obind]. destruct u; cbn [omap obind].
        * destruct (Z.eqb_spec (bt_size t) 1) as [->|N]; cbn [omap obind]; [split; [eauto|]; split; [intros N; destruct N; reflexivity|tauto]|]. split; [contradiction|]. split; [reflexivity|tauto].
        * split; [eauto|]. split; tauto.
        * split; [tauto|]. split; [reflexivity|tauto].
        * split; [tauto|]. split; [reflexivity|tauto].
      + unfold bitparam_get_str. rewrite Rd. cbn. split; [eauto|]. tauto.
      + split; [tauto|]. split; [reflexivity|tauto].
      + split; [tauto|]. split; [reflexivity|tauto].
    - destruct h as [u| |u|]; cbn [hkind_array Nat.eqb negb Bool.eqb handle_read read_as].
      + destruct (number_reads t u _ _ Ft) as [A B]. split; [intros N; destruct (A N) as [v ->]; cbn; eauto|]. split; [intros N; rewrite (B N); reflexivity|]. destruct t, u; cbn [number_of]; tauto.
      + split; [|tauto]. intros _. destruct (param_get_quiet t (Fmt false false) (offset (sy_root y) p) (mg_main m)) as [s ->]; [intros X; discriminate X|exact Ft|]. cbn. eauto.
      + split; [tauto|]. split; [reflexivity|tauto].
      + split; [tauto|]. split; [reflexivity|tauto].
    - destruct (Nat.eqb_spec len 0) as [->|N]; cbn [negb]; destruct h as [u| |u|]; cbn [hkind_array Bool.eqb handle_read read_as].
      + split; [tauto|]. split; [reflexivity|tauto].
      + split; [tauto|]. split; [reflexivity|tauto].
      + split; [tauto|]. split; [reflexivity|tauto].
      + split; [tauto|]. split; [reflexivity|tauto].
      + split; [tauto|]. split; [reflexivity|tauto].
      + split; [tauto|]. split; [reflexivity|tauto].
      + destruct (numbers_read t u len (offset (sy_root y) p) (mg_main m)) as [A B]; [rewrite Nat.mul_comm; exact Ft|]. split; [intros [_ Q]; destruct (A Q) as [v ->]; cbn; eauto|].
        split; [intros Q; rewrite B by tauto; reflexivity|]. destruct t, u; cbn [number_of]; tauto.
      + destruct (texts_read t len (offset (sy_root y) p) (mg_main m)) as [v ->]; [rewrite Nat.mul_comm; exact Ft|]. cbn. split; [eauto|]. tauto.
    - destruct h as [u| |u|]; cbn [hkind_array Nat.eqb negb Bool.eqb handle_read read_as].
      + split; [tauto|]. split; [reflexivity|tauto].
      + pose proof (typed_valued y m p e max Sy R Pa Ek) as [Vm _]. rewrite Ek in Vm. destruct (string_get_terminated max _ _ Vm) as [s [-> _]]. cbn. split; [eauto|tauto].
      + split; [tauto|]. split; [reflexivity|tauto].
      + split; [tauto|]. split; [reflexivity|tauto]. }
  destruct (elem_at (sy_root y) p) as [e|] eqn:E; [|unfold handle_get; rewrite E; split; [split; [intros [v Q]; discriminate Q|intros [e [[Q _] _]]; rewrite E in Q; discriminate Q]|right; reflexivity]].
  destruct (is_param (e_kind e)) eqn:Ip.
  - destruct (G e eq_refl Ip) as [G1 [G2 [D|D]]].
    + split; [split; [intros _; exists e; split; [split; assumption|exact D]|intros _; exact (G1 D)]|left; exact (G1 D)].
    + rewrite (G2 D). split; [split; [intros [v Q]; discriminate Q|intros [e' [[Q _] D']]; rewrite E in Q; injection Q as <-; contradiction]|right; reflexivity].
  - assert (Z : handle_get y p h m = Err) by (unfold handle_get; rewrite E; unfold check_get; rewrite Ip; reflexivity). rewrite Z.
    split; [split; [intros [v Q]; discriminate Q|intros [e' [[Q Q'] _]]; rewrite E in Q; injection Q as <-; congruence]|right; reflexivity].
Qed.
Print Assumptions C49_reads.

Example C49_reads_nonvacuous : reachable_typed demo demo_call
  /\ map (fun ph => match handle_get demo (fst ph) (snd ph) demo_call with Ok _ => true | _ => false end)
       [([1; 0], HKVal KUInt); ([1; 0], HKVal KInt); ([1; 0], HKVal KBool); ([1; 0], HKVal KDbl); ([1; 0], HKStr); ([1; 0], HKStrs); ([0; 0; 1], HKVals KBool); ([0; 0; 1], HKVals KInt); ([0; 0; 1], HKStrs); ([0; 0; 1], HKStr); ([1], HKStr)]
     = [true; true; false; false; true; false; true; false; true; false; false].
Proof. split; [exact demo_call_typed|vm_compute; reflexivity]. Qed.
