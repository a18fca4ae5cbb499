(** C72: what a settings document says is what the system gets.

    Documents of the nesting of the schemas ([domains_shaped], [domain_shaped]) with the keys of the schemas ([keyed]).  The
    meaning of a document is in DocSpec: [readable], the documents that are accepted, and [domain_says], the domain that a document
    gives.  The settings of one element are read with [asked] of CatSpec: a text for each parameter below the element. *)
From Coq Require Import List Arith ZArith Bool Ascii String Lia.
From Verif Require Import Base BaseProofs TextModel ParamTypeModel BlackboardModel BitModel ArrayModel TreeModel TreeSpec TreeProofs MemSpec CriterionModel CriterionSpec RuleModel RuleSpec
  SyncModel SyncProofs DomainModel DomainSpec DomainInv DomainApply DomainsInv DomainProofs MgrModel MgrSpec MgrProofs MgrSkel MgrFlow Demo ValueSpec XmlModel XmlSpec XmlDemo XmlMgr
  DomXmlModel DomXmlSpec DomXmlInv DomXmlHist DomXmlProps CatSpec DocSpec DocProofs.
Import ListNotations.
Local Open Scope nat_scope.

(** ** All the domains *)

(** Whatever the state, in the tuning mode: the document is accepted exactly when it is for the system and each of its domains can
    be read.  The domains are then those of the document, in its order, and no others; the settings that no configuration has are
    those of the memory.  A document that is refused leaves no domain at all.  Nothing else than the domains changes, in particular
    not the memory. *)
Theorem C72_domains : forall y m ws x, system_ok y -> names_ok (sy_root y) -> history y m -> mg_tuning m = true -> domains_shaped x -> Forall keyed (x_elems x) ->
  exists b m', import_domains y ws (Some x) m = Ok (b, m') /\ m' = with_doms m (mg_doms m') /\ history y m'
    /\ (b = true <-> about_system y x /\ Forall (readable y (mg_crits m) ws) (x_elems x))
    /\ (b = true -> Forall2 (fun x d => domain_says y (mg_crits m) ws (Some (mg_main m)) x d /\ dm_last d = None) (x_elems x) (ds_list (mg_doms m')))
    /\ (b = false -> ds_list (mg_doms m') = []).
Proof.
  intros y m ws x Sy Nm Hh T Sx Ky. pose proof (history_sound y m Sy Hh) as So. pose proof So as [[K [V L]] [R C]].
  destruct (import_all_says y (mg_crits m) ws x (mg_doms m) (proj1 Sy) (proj2 Sy) Nm C K Sx Ky) as [b [s [E [F [Hb [Hl Hn]]]]]].
  destruct b.
  - destruct (validate_sound y m s Sy So F) as [s' [E' So']]. assert (import_domains y ws (Some x) m = Ok (true, with_doms m s')) as Ei.
    { unfold import_domains, tuned. rewrite T, E. cbn [obind fst snd]. rewrite E'. reflexivity. }
    exists true, (with_doms m s'). split; [exact Ei|]. split; [reflexivity|]. split; [apply (hi_import y m ws (Some x) true); auto|]. split; [exact Hb|]. split; [|discriminate].
    intros _. cbn [mg_doms with_doms]. apply (validate_says y (mg_crits m) ws (mg_main m) (x_elems x) s s'); auto; [apply Sy|apply F].
  - assert (import_domains y ws (Some x) m = Ok (false, with_doms m s)) as Ei by (unfold import_domains, tuned; rewrite T, E; reflexivity).
    exists false, (with_doms m s). split; [exact Ei|]. split; [reflexivity|]. split; [apply (hi_import y m ws (Some x) false); auto|]. split; [exact Hb|]. split; [discriminate|].
    intros _. cbn [mg_doms with_doms]. auto.
Qed.
Print Assumptions C72_domains.

(** ** One domain *)

(** Refused without any effect when the document cannot be read, or when a domain of the name exists and must not be overwritten;
    otherwise the domain of the document comes last, in the place of the one of its name.  The settings that no configuration has
    stay without a value. *)
Theorem C72_single : forall y m ws overwrite x a, system_ok y -> names_ok (sy_root y) -> history y m -> mg_tuning m = true -> domain_shaped x -> keyed x -> aware_says x a ->
  exists b m', import_domain y ws overwrite (Some x) m = Ok (b, m') /\ m' = with_doms m (mg_doms m')
    /\ (b = true <-> readable y (mg_crits m) ws x /\ (overwrite = true \/ forall d, In d (ds_list (mg_doms m)) -> dm_path_name d <> x_name x))
    /\ (b = true -> exists d, domain_says y (mg_crits m) ws None x d /\ dm_last d = None
         /\ exists l1 l2, ds_list (mg_doms m') = l1 ++ l2 ++ [d]
              /\ ((ds_list (mg_doms m) = l1 ++ l2 /\ forall d0, In d0 (l1 ++ l2) -> dm_path_name d0 <> x_name x)
                  \/ exists d0, ds_list (mg_doms m) = l1 ++ d0 :: l2 /\ dm_path_name d0 = x_name x /\ forall d1, In d1 l1 -> dm_path_name d1 <> x_name x))
    /\ (b = false -> ds_list (mg_doms m') = ds_list (mg_doms m)).
Proof.
  intros y m ws overwrite x a Sy Nm Hh T Sx Kx Ha. pose proof (history_sound y m Sy Hh) as [[K [V L]] [R C]]. set (s := mg_doms m) in *.
  destruct (domain_from_says y (mg_crits m) ws a (ds_fresh s) x (ds_att s) (proj1 Sy) (proj2 Sy) Nm C (ds_att_once _ _ K) (fun p => fresh_unattached y s p K) Sx Kx Ha)
      as [b [d [at_ [E [Kd [Lk [Id [Rd [Nd [Ld [Hb Hd]]]]]]]]]]]. rewrite <- (readable_body y (mg_crits m) ws x a Ha) in Hb.
  pose proof (proj2 (aware_from_says x a) Ha) as Ea.
  assert (forall n, ds_find n (Domains (ds_list s) at_ (S (ds_fresh s))) = ds_find n s) as Fn by reflexivity.
  unfold import_domain, tuned. rewrite T. unfold on_doms, import_one. fold s. rewrite (proj1 Sx), str_eqb_refl, Ea, E. cbn [obind].
  destruct b; [|eexists false, _; split; [reflexivity|]; split; [reflexivity|]; split; [|split; [discriminate|reflexivity]]; split; [discriminate|]; intros [Q _]; apply Hb in Q; discriminate].
  rewrite Fn, Nd. destruct (ds_find (x_name x) s) as [d0|] eqn:Ef.
  - destruct (ds_find_split _ _ _ Ef) as [l1 [l2 [El [Pn Fl]]]]. destruct overwrite.
    + eexists true, _. split; [reflexivity|]. split; [reflexivity|]. split; [split; [intros _; split; [apply Hb; auto|auto]|auto]|]. split; [|discriminate].
      intros _. exists d. split; [apply Hd; auto|]. split; [auto|]. exists l1, l2. unfold ds_delete. rewrite Fn, Ef. cbn [snd ds_list ds_att ds_fresh mg_doms with_doms].
      rewrite El. rewrite drop_domain_split by auto. cbn [snd ds_list]. rewrite app_assoc. split; [reflexivity|]. right. exists d0. split; [auto|]. split.
      * exact Pn.
      * exact Fl.
    + eexists false, _. split; [reflexivity|]. split; [reflexivity|]. split; [|split; [discriminate|reflexivity]]. split; [discriminate|]. intros [_ [Q|Q]]; [discriminate|].
      exfalso. apply (Q d0); [rewrite El; apply in_elt|exact Pn].
  - assert (forall d0, In d0 (ds_list s) -> dm_path_name d0 <> x_name x) as Q.
    { intros d0 I0 Q. unfold ds_find in Ef. apply (List.find_none _ _ Ef d0) in I0. cbn beta in I0. rewrite Q, str_eqb_refl in I0. discriminate. }
    eexists true, _. split; [reflexivity|]. split; [reflexivity|]. split; [split; [intros _; split; [apply Hb; auto|auto]|auto]|]. split; [|discriminate].
    intros _. exists d. split; [apply Hd; auto|]. split; [auto|]. exists (ds_list s), []. split; [reflexivity|]. rewrite app_nil_r. left. auto.
Qed.
Print Assumptions C72_single.

(** ** Start *)

Lemma applied_says : forall y cs ws main cs' x d, domain_says y cs ws main x d -> domain_says y cs ws main x (applied cs' true d).
Proof. intros y cs ws main cs' x d H. unfold applied. destruct (dm_applicable cs' d); exact H. Qed.

(** The settings file of a start: accepted under the same condition; the system then starts with the domains of the document, whose
    missing settings come from the memory before the first configurations are applied. *)
Theorem C72_start : forall y allowed cs bb x, system_ok y -> names_ok (sy_root y) -> crits_ok cs -> List.length bb = footprint (sy_root y) -> domains_shaped x -> Forall keyed (x_elems x) ->
  exists b s, import_all y cs true x (Domains [] [] 0) = Ok (b, s)
    /\ (b = true <-> about_system y x /\ Forall (readable y cs true) (x_elems x))
    /\ (b = true -> exists m, load y allowed cs s bb = Ok m /\ history y m
          /\ Forall2 (fun x d => domain_says y cs true (Some bb) x d
                        /\ dm_last d = option_map cf_id (dm_applicable cs d)) (x_elems x) (ds_list (mg_doms m))).
Proof.
  intros y al cs bb x Sy Nm C L Sx Ky.
  destruct (import_all_says y cs true x (Domains [] [] 0) (proj1 Sy) (proj2 Sy) Nm C (no_domains_ok y) Sx Ky) as [b [s [E [F [Hb [Hl Hn]]]]]].
  exists b, s. split; [exact E|]. split; [exact Hb|]. intros ->. specialize (Hl eq_refl).
  destruct (file_loadable y cs (Some x) s bb Sy C L (ex_intro _ true E)) as [Lo R]. destruct (load_ok y al cs s bb Sy Lo) as [m [s1 [E1 [Ev [Ea [M0 [R0 _]]]]]]].
  exists m. split; [exact E1|]. split; [exact (hi_start y al cs (Some x) s bb m C L (ex_intro _ true E) E1)|].
  destruct (do_apply_inv y true [] _ m (proj1 Sy) M0 Ea) as [Ed _]. rewrite Ed. cbn [ds_list mg_crits mg_doms].
  pose proof (validate_says y cs true bb (x_elems x) s s1 (proj1 Sy) (proj1 F) L Hl Ev) as G. clear -G.
  induction G as [|xd0 d l l' [H1 H2] G IH]; cbn [map]; constructor; [|exact IH]. split; [apply applied_says; exact H1|].
  unfold applied. destruct (dm_applicable cs d) eqn:Eq; unfold dm_applicable in *; cbn [with_last dm_configs dm_last] in *; rewrite Eq; reflexivity.
Qed.
Print Assumptions C72_start.

(** ** Examples *)

(** A document written by hand: in the domain D the configuration Rest has no setting of the string and takes that of Call; no
    configuration has one of /Sys/Sub/neg, which comes from the memory; Call mentions its elements in another order. *)
Definition ax (l : list (string * string)) : list (str * str) := map (fun z => (lit (fst z), lit (snd z))) l.
Definition ax_int (n v : string) : xnode := XElem (lit "IntegerParameter") (ax [("Name", n)]%string) [XText (lit v)].
Definition ax_str (v : string) : xnode := XElem (lit "StringParameter") (ax [("Name", "str")]%string) [XText (lit v)].
Definition ax_set (p : string) (x : xnode) : xnode := XElem (lit "ConfigurableElement") (ax [("Path", p)]%string) [x].
Definition ax_path (p : string) : xnode := XElem (lit "ConfigurableElement") (ax [("Path", p)]%string) [].
Definition ax_config (n : string) (l : list xnode) : xnode := XElem (lit "Configuration") (ax [("Name", n)]%string) l.
Definition ax_is (c v : string) : xnode := XElem (lit "SelectionCriterionRule") (ax [("SelectionCriterion", c); ("MatchesWhen", "Is"); ("Value", v)]%string) [].
Definition ax_rule (l : list xnode) (t : string) : xnode := XElem (lit "CompoundRule") (ax [("Type", t)]%string) l.
Definition ax_domain (a t : string) (v : string) : xnode :=
  XElem (lit "ConfigurableDomain") (ax [("Name", "D"); ("SequenceAware", a)]%string)
    [XElem (lit "Configurations") [] [ax_config "Call" [ax_rule [ax_is "Mode" "Call"] t]; ax_config "Rest" []];
     XElem (lit "ConfigurableElements") [] [ax_path "/Sys/Sub/mix/a"; ax_path "/Sys/Sub/neg"; ax_path "/Sys/Sub/str"];
     XElem (lit "Settings") []
       [ax_config "Call" [ax_set "/Sys/Sub/str" (ax_str "hi"); ax_set "/Sys/Sub/mix/a" (ax_int "a" v)];
        ax_config "Rest" [ax_set "/Sys/Sub/mix/a" (ax_int "a" "12")]]].
Definition ax_domains (l : list xnode) : xnode := XElem (lit "ConfigurableDomains") (ax [("SystemClassName", "Sys")]%string) l.

Lemma ax_shaped : forall a t v, domain_shaped (ax_domain a t v).
Proof.
  intros a t v. split; [reflexivity|]. do 3 eexists. split; [reflexivity|]. split; [reflexivity|]. split; [reflexivity|]. split; [right; eexists; split; reflexivity|].
  repeat apply Forall_cons; [..|apply Forall_nil]; (split; [reflexivity|]); [right|left; reflexivity]. eexists. split; [reflexivity|].
  split; [reflexivity|]. constructor. repeat constructor.
Qed.

Lemma ax_keyed : forall a t v, keyed (ax_domain a t v).
Proof.
  intros a t v. split; [|split].
  - vm_compute. repeat constructor; vm_compute; intuition discriminate.
  - vm_compute. intuition discriminate.
  - intros b [<-|[<-|[]]]; vm_compute; repeat constructor; vm_compute; intuition discriminate.
Qed.

(** The last values: read, an integer out of its range, and an awareness that is no Boolean. *)
Example C72_domains_nonvacuous : names_ok (sy_root xd) /\ history xd dx /\ mg_tuning dx = true
  /\ domains_shaped (ax_domains [ax_domain "true" "All" "-9"]) /\ Forall keyed (x_elems (ax_domains [ax_domain "true" "All" "-9"]))
  /\ (exists m', import_domains xd true (Some (ax_domains [ax_domain "true" "All" "-9"])) dx = Ok (true, m')
       /\ map dm_name (ds_list (mg_doms m')) = [lit "D"] /\ map dm_aware (ds_list (mg_doms m')) = [true]
       /\ map (fun d => map cf_rule (dm_configs d)) (ds_list (mg_doms m')) = [[Some (RComp true [RCrit 0 VIs 1]); None]]
       /\ map (fun d => map (fun c => map ar_pos (cf_areas c)) (dm_configs d)) (ds_list (mg_doms m')) = [[[[0; 3]; [0; 0; 0]; [0; 1]]; [[0; 0; 0]; [0; 1]; [0; 3]]]]
       /\ get_recorded xd (lit "D") (lit "Call") (lit "/Sys/Sub/mix/a") m' = Ok (lit "-9")
       /\ get_recorded xd (lit "D") (lit "Rest") (lit "/Sys/Sub/mix/a") m' = Ok (lit "12")
       /\ get_recorded xd (lit "D") (lit "Rest") (lit "/Sys/Sub/str") m' = Ok (lit "hi")
       /\ get_recorded xd (lit "D") (lit "Rest") (lit "/Sys/Sub/neg") m' = Ok (lit "minus"))
  /\ (exists m', import_domains xd true (Some (ax_domains [ax_domain "true" "All" "51"])) dx = Ok (false, m'))
  /\ (exists m', import_domains xd true (Some (ax_domains [ax_domain "yes" "All" "-9"])) dx = Ok (false, m')).
Proof.
  split; [exact xd_names|]. split; [apply xd_history; vm_compute; reflexivity|]. split; [vm_compute; reflexivity|].
  split; [split; [reflexivity|constructor; [apply ax_shaped|constructor]]|]. split; [constructor; [apply ax_keyed|constructor]|].
  split; [|split; eexists; vm_compute; reflexivity].
  eexists. split; [vm_compute; reflexivity|]. do 7 (split; [vm_compute; reflexivity|]). vm_compute. reflexivity.
Qed.

(** The domain D of [dx] is replaced only when asked. *)
Example C72_single_nonvacuous : names_ok (sy_root xd) /\ history xd dx /\ mg_tuning dx = true
  /\ domain_shaped (ax_domain "0" "Any" "-9") /\ keyed (ax_domain "0" "Any" "-9") /\ aware_says (ax_domain "0" "Any" "-9") false
  /\ map dm_name (ds_list (mg_doms dx)) = [lit "D"; lit "E"]
  /\ (exists m', import_domain xd true true (Some (ax_domain "0" "Any" "-9")) dx = Ok (true, m') /\ map dm_name (ds_list (mg_doms m')) = [lit "E"; lit "D"]
       /\ map (fun d => map (fun c => map ar_valid (cf_areas c)) (dm_configs d)) (ds_list (mg_doms m')) = [[[true]]; [[true; true; false]; [true; false; true]]])
  /\ (exists m', import_domain xd true false (Some (ax_domain "0" "Any" "-9")) dx = Ok (false, m') /\ map dm_name (ds_list (mg_doms m')) = [lit "D"; lit "E"]).
Proof.
  split; [exact xd_names|]. split; [apply xd_history; vm_compute; reflexivity|]. split; [vm_compute; reflexivity|].
  split; [apply ax_shaped|]. split; [apply ax_keyed|]. split; [unfold aware_says; vm_compute; auto|]. split; [vm_compute; reflexivity|]. split.
  - eexists. split; [vm_compute; reflexivity|]. split; vm_compute; reflexivity.
  - eexists. split; vm_compute; reflexivity.
Qed.

Example C72_start_nonvacuous : crits_ok demo_crits /\ List.length (initial_blackboard xd_tree) = footprint (sy_root xd)
  /\ (exists s m, import_all xd demo_crits true (ax_domains [ax_domain "1" "All" "-9"]) (Domains [] [] 0) = Ok (true, s)
       /\ load xd true demo_crits s (initial_blackboard xd_tree) = Ok m
       /\ get_recorded xd (lit "D") (lit "Rest") (lit "/Sys/Sub/neg") m = Ok (lit "none") /\ map dm_last (ds_list (mg_doms m)) = [None]).
Proof.
  split; [exact demo_crits_ok|]. split; [vm_compute; reflexivity|]. do 2 eexists. split; [vm_compute; reflexivity|]. split; [vm_compute; reflexivity|]. split; vm_compute; reflexivity.
Qed.

(** ** What the documents do not protect from *)

(** Two domains of the same name in one document are accepted, where createDomain refuses a second one: only the first can be
    reached by its name. *)
Theorem C72_domain_names_refuted : exists y m x m', system_ok y /\ names_ok (sy_root y) /\ history y m /\ mg_tuning m = true /\ domains_shaped x /\ Forall keyed (x_elems x)
  /\ import_domains y true (Some x) m = Ok (true, m') /\ map dm_name (ds_list (mg_doms m')) = [lit "D"; lit "D"]
  /\ get_recorded y (lit "D") (lit "Call") (lit "/Sys/Sub/mix/a") m' = Ok (lit "-9")
  /\ fst (match step y m (CCreateDomain (lit "D")) with Ok z => z | _ => (true, m) end) = false.
Proof.
  exists xd, dx, (ax_domains [ax_domain "true" "All" "-9"; ax_domain "true" "All" "8"]). eexists. split; [exact xd_ok|]. split; [exact xd_names|].
  split; [apply xd_history; vm_compute; reflexivity|]. split; [vm_compute; reflexivity|].
  split; [split; [reflexivity|repeat constructor; apply ax_shaped]|]. split; [repeat apply Forall_cons; try apply ax_keyed; constructor|].
  split; [vm_compute; reflexivity|]. split; [vm_compute; reflexivity|]. split; vm_compute; reflexivity.
Qed.
Print Assumptions C72_domain_names_refuted.

(** A compound rule whose Type is neither "All" nor "Any" is not refused: it is read as "Any". *)
Theorem C72_rule_type_refuted : exists y m x m', system_ok y /\ history y m /\ mg_tuning m = true /\ domains_shaped x
  /\ import_domains y true (Some x) m = Ok (true, m') /\ map (fun d => map cf_rule (dm_configs d)) (ds_list (mg_doms m')) = [[Some (RComp false [RCrit 0 VIs 1]); None]]
  /\ x = ax_domains [ax_domain "true" "all" "-9"].
Proof.
  exists xd, dx, (ax_domains [ax_domain "true" "all" "-9"]). eexists. split; [exact xd_ok|]. split; [apply xd_history; vm_compute; reflexivity|]. split; [vm_compute; reflexivity|].
  split; [split; [reflexivity|repeat constructor; apply ax_shaped]|]. split; [vm_compute; reflexivity|]. split; [vm_compute; reflexivity|reflexivity].
Qed.
Print Assumptions C72_rule_type_refuted.
