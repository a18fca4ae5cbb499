(** Properties of the reading of structure files (C65). *)
From Coq Require Import List Arith ZArith QArith Bool Ascii String Lia.
From Verif Require Import Base BaseProofs TextModel TextSpec TextProofs RealModel RealSpec ParamTypeModel ParamTypeSpec BitModel TreeModel TreeSpec
  MapModel MapSpec TypeModel TypeSpec XmlModel SyncModel DomainSpec MgrSpec DomXmlModel DeclModel DeclSpec DeclProofs DeclSysProofs DeclDemo.
Import ListNotations.
Local Open Scope Z_scope.

(** ** C65: structure files *)

(** A declaration that is accepted means what its attributes say, and nothing else. *)
Theorem C65_declared : forall x t, conforms x -> decl_tel x = Ok t -> declares x t /\ forall t', declares x t' -> same_tel t t'.
Proof.
  intros x t Hc H. assert (D := decl_tel_sound x t Hc H). split; [exact D|]. intros t' D'. apply (declares_one x); auto.
  destruct x as [s|ty a c]; [discriminate|eauto].
Qed.
Print Assumptions C65_declared.

(** A declaration is accepted exactly when it declares a type element: sizes and bounds that can be encoded, minimum below the
    maximum, bit fields inside their block. *)
Theorem C65_accepted : forall ty a c, conforms (XElem ty a c) ->
  ((exists t, decl_tel (XElem ty a c) = Ok t) <-> exists t, declares (XElem ty a c) t).
Proof.
  intros ty a c Hc. split; intros (t & H).
  - exists t. apply decl_tel_sound; auto.
  - eapply decl_tel_complete; eauto.
Qed.
Print Assumptions C65_accepted.

(** A structure file that follows the schemas, whose types have no component in a block, is accepted or refused. *)
Theorem C65_defined : forall lib hw nm x, conforms x -> nested x -> flat_types x -> keys_limited lib ->
  exists fuel, forall f, (fuel <= f)%nat -> settled (load_system lib hw f nm x).
Proof. exact load_system_settled. Qed.
Print Assumptions C65_defined.

(** The system loaded does not depend on [fuel]. *)
Theorem C65_one_system : forall lib hw nm x f f' y y', load_system lib hw f nm x = Ok y -> load_system lib hw f' nm x = Ok y' -> y = y'.
Proof.
  intros lib hw nm x f f' y y' H H'. destruct (Nat.le_ge_cases f f') as [L|L].
  - apply (load_system_mono _ _ _ _ _ _ _ L) in H. congruence.
  - apply (load_system_mono _ _ _ _ _ _ _ L) in H'. congruence.
Qed.
Print Assumptions C65_one_system.

(** The elements of the system loaded are the ones declared: one subsystem per declaration, in order, holding what its instance
    definition declares, created from the types of its own library. *)
Theorem C65_content : forall lib hw fuel nm x y, conforms x -> nested x -> load_system lib hw fuel nm x = Ok y ->
  x_type x = lit "SystemClass" /\ x_name x = nm
  /\ exists es, sy_root y = Elem nm KdSystem es
       /\ Forall2 (fun s e => exists ts defs xs, subsystem_declared s ts defs xs /\ e = Elem (x_name s) KdSubsystem (map forget xs)) (x_elems x) es.
Proof.
  intros lib hw fuel nm x y Hc Hn H. apply load_system_made in H; auto. destruct H as (T & N & subs & objs & F & _ & -> & _).
  split; [exact T|]. split; [exact N|]. eexists. split; [reflexivity|].
  clear - F. induction F as [|s [n [sb xs]] l l' (-> & _ & _ & ts & defs & ll & ds & SD & _) F IH]; simpl; constructor; auto. exists ts, defs, xs. auto.
Qed.
Print Assumptions C65_content.

(** Every system loaded is well formed, and no parameter has two subsystem objects. *)
Theorem C65_well_formed : forall lib hw fuel nm x y, conforms x -> nested x -> keys_limited lib -> load_system lib hw fuel nm x = Ok y ->
  elem_wf (sy_root y) = true /\ one_syncer y.
Proof. intros lib hw fuel nm x y Hc Hn HK H. split; [eapply system_wf; eauto|eapply system_synced; eauto]. Qed.
Print Assumptions C65_well_formed.

(** When moreover no bit fields overlap, the system has all that the properties of the manager ask of a system. *)
Theorem C65_system_ok : forall lib hw fuel nm x y, conforms x -> nested x -> keys_limited lib -> bits_apart x -> load_system lib hw fuel nm x = Ok y ->
  system_ok y.
Proof.
  intros lib hw fuel nm x y Hc Hn HK Hb H. split; [split; [eapply system_wf; eauto|eapply system_apart; eauto]|]. eapply system_synced; eauto.
Qed.
Print Assumptions C65_system_ok.

(** When the names are the ones the schemas ask for, when no extension and no two subsystems share a name, each path designates
    one element. *)
Theorem C65_names : forall lib hw fuel nm x y, conforms x -> nested x -> names_declared x -> extensions_apart x -> NoDup (map x_name (x_elems x)) ->
  nm <> [] -> ~ In "/"%char nm -> load_system lib hw fuel nm x = Ok y -> names_ok (sy_root y).
Proof. exact system_names. Qed.
Print Assumptions C65_names.

(** ** The example *)

Lemma sd_loaded : exists y, load_system sd_plugins no_error 5 (lit "Audio") sd = Ok y /\ sy_own y [0; 0; 0; 0]%nat = Some 0%nat
  /\ sy_own y [0; 1]%nat = Some 6%nat /\ sy_own y [1]%nat = Some 8%nat /\ footprint (sy_root y) = 32%nat.
Proof.
  destruct (load_system sd_plugins no_error 5 (lit "Audio") sd) as [y| | |] eqn:E; [|vm_compute in E; discriminate E..].
  assert (K : match load_system sd_plugins no_error 5 (lit "Audio") sd with
              | Ok y => (sy_own y [0; 0; 0; 0]%nat, sy_own y [0; 1]%nat, sy_own y [1]%nat, footprint (sy_root y)) | _ => (None, None, None, 0%nat) end
              = (Some 0, Some 6, Some 8, 32)%nat) by (vm_compute; reflexivity).
  rewrite E in K. exists y. injection K as -> -> -> ->. auto.
Qed.

Lemma sd_extensions : extensions_apart sd.
Proof.
  intros s xl us u ns Is Ts Ix L Iu H. apply inside_below in Is.
  assert (K : s = sd_sub \/ s = sd_sub2).
  { vm_compute in Is. repeat (destruct Is as [Is|Is]; [subst s; try (exfalso; revert Ts; clear; vm_compute; discriminate); auto|]). contradiction. }
  destruct K; subst s; vm_compute in Ix; destruct Ix as [Ix|[Ix|[]]]; subst xl; vm_compute in L.
  - inversion L as [|x xs ts T L1|x xs vs ts T L1 L2]; subst; [|exfalso; clear - T; destruct T as [T|T]; vm_compute in T; discriminate T].
    inversion L1 as [|x xs ts' T' L3|x xs vs ts' T' L3 L4]; subst; [exfalso; clear - T'; vm_compute in T'; discriminate T'|].
    inversion L4; subst. vm_compute in L3.
    inversion L3 as [|x xs ts' T3 L5|x xs vs' ts' T3 L5 L6]; subst; [|exfalso; clear - T3; destruct T3 as [T|T]; vm_compute in T; discriminate T].
    inversion L5; subst. apply nodup_checked. destruct Iu as [<-|[<-|[]]].
    + inversion H as [x E|x n j u ns' E]; subst; [vm_compute; reflexivity|vm_compute in E; discriminate E].
    + inversion H as [x E|x n j u ns' E EJ EN FN HN]; subst; [vm_compute in E; discriminate E|].
      assert (u = sd_base). { destruct j as [|[|[|j]]]; simpl in EJ; try discriminate EJ; injection EJ as <-; [reflexivity|]. vm_compute in E. discriminate E. }
      subst u. inversion HN as [x E'|x n' j' u' ns'' E']; subst; [vm_compute; reflexivity|vm_compute in E'; discriminate E'].
  - inversion L as [|x xs ts T L1|x xs vs ts T L1 L2]; subst; [exfalso; clear - T; vm_compute in T; discriminate T|exfalso; clear - T; destruct T as [T|T]; vm_compute in T; discriminate T].
  - inversion L; subst. contradiction.
  - inversion L as [|x xs ts T L1|x xs vs ts T L1 L2]; subst; [exfalso; clear - T; vm_compute in T; discriminate T|exfalso; clear - T; destruct T as [T|T]; vm_compute in T; discriminate T].
Qed.

Example C65_nonvacuous : exists y, load_system sd_plugins no_error 5 (lit "Audio") sd = Ok y /\ system_ok y /\ names_ok (sy_root y)
  /\ conforms sd /\ nested sd /\ flat_types sd /\ keys_limited sd_plugins.
Proof.
  destruct sd_loaded as (y & E & _). exists y. split; [exact E|]. split; [exact (C65_system_ok _ _ _ _ _ _ sd_conforms sd_nested sd_keys sd_apart E)|].
  split; [|split; [exact sd_conforms|split; [exact sd_nested|split; [exact sd_flat|exact sd_keys]]]].
  refine (C65_names _ _ _ _ _ _ sd_conforms sd_nested sd_names sd_extensions _ _ _ E).
  - apply nodup_checked. vm_compute. reflexivity.
  - discriminate.
  - intros I. vm_compute in I. repeat (destruct I as [I|I]; [discriminate I|]). exact I.
Qed.

(** The declarations of the example: what two of them mean. *)
Example C65_declared_nonvacuous : exists x, conforms x
  /\ decl_tel x = Ok (TLeaf (lit "volume") (KdParam (PInt true 1 (-10) 20)) (lit "Control:Volume")).
Proof.
  exists (el "IntegerParameter" [("Name", "volume"); ("Size", "8"); ("Signed", "true"); ("Min", "-10"); ("Max", "0x14"); ("Mapping", "Control:Volume")]%string
     [el "LinearAdaptation" [("SlopeNumerator", "2.5"); ("Offset", "-3")]%string []]).
  split; [apply conforms_check; vm_compute; reflexivity|vm_compute; reflexivity].
Qed.
Example C65_refused_nonvacuous : exists ty a c, conforms (XElem ty a c) /\ decl_tel (XElem ty a c) = Err /\ ~ exists t, declares (XElem ty a c) t.
Proof.
  exists (lit "IntegerParameter"), [(lit "Name", lit "volume"); (lit "Min", lit "5"); (lit "Max", lit "4")], [].
  assert (C : conforms (XElem (lit "IntegerParameter") [(lit "Name", lit "volume"); (lit "Min", lit "5"); (lit "Max", lit "4")] [])) by (apply conforms_check; vm_compute; reflexivity).
  assert (E : decl_tel (XElem (lit "IntegerParameter") [(lit "Name", lit "volume"); (lit "Min", lit "5"); (lit "Max", lit "4")] []) = Err) by (vm_compute; reflexivity).
  split; [exact C|]. split; [exact E|]. intros D. apply C65_accepted in D; [|exact C]. destruct D as (t & D). rewrite E in D. discriminate.
Qed.

(** ** What the reading does not refuse *)

Definition sd_one (c : list xnode) : xnode :=
  el "SystemClass" [("Name", "Audio")]%string [el "Subsystem" [("Name", "policy"); ("Type", "Virtual")]%string [el "ComponentLibrary" [] []; el "InstanceDefinition" [] c]].

(** The number of bits of a fixed point parameter is added in 32 bits: an integral part of 4294967295 bits is accepted in a byte
    (the schema does not bound it). *)
Definition wide_fix : xnode := el "FixedPointParameter" [("Name", "gain"); ("Size", "8"); ("Integral", "4294967295"); ("Fractional", "0")]%string [].
Theorem C65_fixed_point_bits_refuted : exists x bytes n m nm mp, nested x /\ decl_tel x = Ok (TLeaf nm (KdParam (PFix bytes n m)) mp)
  /\ 8 * Z.of_nat bytes < Z.of_nat n + Z.of_nat m + 1.
Proof.
  exists wide_fix, 1%nat, (Z.to_nat 4294967295), 0%nat, (lit "gain"), [].
  split; [apply nested_checked; vm_compute; reflexivity|]. split; [|rewrite Z2Nat.id; lia].
  unfold wide_fix, el. rewrite decl_tel_unfold. cbv zeta. fold (el "FixedPointParameter" [("Name", "gain"); ("Size", "8"); ("Integral", "4294967295"); ("Fractional", "0")]%string []). fold wide_fix.
  assert (A : decl_length wide_fix = Ok 0%nat) by (vm_compute; reflexivity). rewrite A. cbn [obind]. tags.
  unfold leaf, decl_fix.
  assert (B : attr_num t_uint64 (lit "Size") 0 wide_fix = Ok 8) by (vm_compute; reflexivity). rewrite B. cbn [obind].
  assert (C : attr_num t_uint32 (lit "Integral") 0 wide_fix = Ok 4294967295) by (vm_compute; reflexivity). rewrite C. cbn [obind].
  assert (D : attr_num t_uint32 (lit "Fractional") 0 wide_fix = Ok 0) by (vm_compute; reflexivity). rewrite D. cbn [obind].
  assert (E : (8 <? to_ctype t_uint32 (4294967295 + 0 + 1)) = false) by (vm_compute; reflexivity). rewrite E.
  assert (F : no_child wide_fix = Ok tt) by reflexivity. rewrite F. cbn [obind]. reflexivity.
Qed.
Print Assumptions C65_fixed_point_bits_refuted.

(** A pair of an enumeration may have a number that its size cannot hold: the literal is declared and can never be set. *)
Theorem C65_enum_value_refuted : exists x bytes ps l v nm mp, conforms x /\ nested x
  /\ decl_tel x = Ok (TLeaf nm (KdParam (PEnum bytes ps)) mp) /\ In (l, v) ps
  /\ forall f, f_raw f = false -> to_bb_str (PEnum bytes ps) f l = Err.
Proof.
  exists (el "EnumParameter" [("Name", "mode"); ("Size", "8")]%string [el "ValuePair" [("Literal", "off"); ("Numerical", "0")]%string []; el "ValuePair" [("Literal", "big"); ("Numerical", "300")]%string []]).
  exists 1%nat, [(lit "off", 0); (lit "big", 300)], (lit "big"), 300, (lit "mode"), [].
  split; [apply conforms_check; vm_compute; reflexivity|]. split; [apply nested_checked; vm_compute; reflexivity|].
  split; [vm_compute; reflexivity|]. split; [simpl; auto|]. intros [raw hex] F. simpl in F. subst raw. destruct hex; vm_compute; reflexivity.
Qed.
Print Assumptions C65_enum_value_refuted.

(** Bit fields that overlap are accepted. *)
Theorem C65_overlap_refuted : exists x y, conforms x /\ nested x /\ names_declared x /\ load_system sd_plugins no_error 1 (lit "Audio") x = Ok y
  /\ ~ fields_apart (sy_root y).
Proof.
  set (x := sd_one [el "BitParameterBlock" [("Name", "flags"); ("Size", "8")]%string
    [el "BitParameter" [("Name", "low"); ("Pos", "0"); ("Size", "3")]%string []; el "BitParameter" [("Name", "high"); ("Pos", "2"); ("Size", "3")]%string []]]).
  exists x. destruct (load_system sd_plugins no_error 1 (lit "Audio") x) as [y| | |] eqn:E; [|vm_compute in E; discriminate E..]. exists y.
  split; [apply conforms_check; vm_compute; reflexivity|]. split; [apply nested_checked; vm_compute; reflexivity|].
  split; [apply names_checked; vm_compute; reflexivity|]. split; [reflexivity|].
  assert (K : match load_system sd_plugins no_error 1 (lit "Audio") x with Ok y => Some (sy_root y) | _ => None end
    = Some (Elem (lit "Audio") KdSystem [Elem (lit "policy") KdSubsystem [Elem (lit "flags") (KdBitBlock 1)
        [Elem (lit "low") (KdBit (BitType 0 3 7 1)) []; Elem (lit "high") (KdBit (BitType 2 3 7 1)) []]]])) by (vm_compute; reflexivity).
  rewrite E in K. injection K as ->. intros F. pose proof (F [0; 0]%nat 0%nat 1%nat _ _ _ _ (Nat.neq_0_succ 0) eq_refl eq_refl eq_refl eq_refl) as H.
  cbn in H. lia.
Qed.
Print Assumptions C65_overlap_refuted.

Lemma find_index_twin : forall n a b i, path_name a = path_name b -> find_index n [a; b] = Some (S i) -> False.
Proof. intros n a b i E. cbn [find_index]. rewrite E. destruct (str_eqb (path_name b) n); discriminate. Qed.

(** Two subsystems of the same name are accepted; no path designates the elements of the second one. *)
Theorem C65_subsystem_names_refuted : exists x y e, conforms x /\ nested x /\ names_declared x
  /\ load_system sd_plugins no_error 1 (lit "Audio") x = Ok y /\ elem_at (sy_root y) [1; 0]%nat = Some e
  /\ forall path, locate (sy_root y) path <> Some [1; 0]%nat.
Proof.
  set (x := el "SystemClass" [("Name", "Audio")]%string
    [el "Subsystem" [("Name", "policy"); ("Type", "Virtual")]%string [el "ComponentLibrary" [] []; el "InstanceDefinition" [] [el "BooleanParameter" [("Name", "a")]%string []]];
     el "Subsystem" [("Name", "policy"); ("Type", "Virtual")]%string [el "ComponentLibrary" [] []; el "InstanceDefinition" [] [el "BooleanParameter" [("Name", "b")]%string []]]]).
  exists x. destruct (load_system sd_plugins no_error 1 (lit "Audio") x) as [y| | |] eqn:E; [|vm_compute in E; discriminate E..].
  exists y, (Elem (lit "b") (KdParam PBool) []).
  split; [apply conforms_check; vm_compute; reflexivity|]. split; [apply nested_checked; vm_compute; reflexivity|].
  split; [apply names_checked; vm_compute; reflexivity|]. split; [reflexivity|].
  assert (K : match load_system sd_plugins no_error 1 (lit "Audio") x with Ok y => Some (sy_root y) | _ => None end
    = Some (Elem (lit "Audio") KdSystem [Elem (lit "policy") KdSubsystem [Elem (lit "a") (KdParam PBool) []];
                                         Elem (lit "policy") KdSubsystem [Elem (lit "b") (KdParam PBool) []]])) by (vm_compute; reflexivity).
  rewrite E in K. injection K as ->. split; [reflexivity|]. intros path. unfold locate. destruct (path_items path) as [[|nm r]|]; try discriminate.
  match goal with |- (if ?b then _ else _) <> _ => destruct b; [|discriminate] end. destruct r as [|n r]; [discriminate|]. cbn [find_desc e_children].
  match goal with |- context [find_index n [?a; ?b]] => destruct (find_index n [a; b]) as [[|i]|] eqn:F end; [| |discriminate].
  - cbn [nth_error]. match goal with |- context [find_desc ?e r] => destruct (find_desc e r) end; discriminate.
  - exfalso. apply (find_index_twin n) in F; [exact F|reflexivity].
Qed.
Print Assumptions C65_subsystem_names_refuted.

(** Without the schemas (they are not validated by default), the size of a fixed point parameter may be 12 bits: one byte is kept
    for them. *)
Theorem C65_fixed_point_size_refuted : exists x bytes n m nm mp, nested x /\ decl_tel x = Ok (TLeaf nm (KdParam (PFix bytes n m)) mp)
  /\ (8 * bytes < n + m + 1)%nat.
Proof.
  exists (el "FixedPointParameter" [("Name", "gain"); ("Size", "12"); ("Integral", "7"); ("Fractional", "4")]%string []), 1%nat, 7%nat, 4%nat, (lit "gain"), [].
  split; [apply nested_checked; vm_compute; reflexivity|]. split; [vm_compute; reflexivity|lia].
Qed.
Print Assumptions C65_fixed_point_size_refuted.

(** Without the schemas, the position of a bit field may be far outside its block: the sum of the position and the size wraps. *)
Theorem C65_bit_position_refuted : exists x nm b mp bits nb, nested x /\ decl_tel x = Ok (TBits nm b mp bits) /\ In nb bits
  /\ 8 * Z.of_nat b < bt_pos (snd nb).
Proof.
  exists (el "BitParameterBlock" [("Name", "flags"); ("Size", "8")]%string [el "BitParameter" [("Name", "low"); ("Pos", "18446744073709551615"); ("Size", "2")]%string []]).
  exists (lit "flags"), 1%nat, [], [(lit "low", BitType 18446744073709551615 2 3 1)], (lit "low", BitType 18446744073709551615 2 3 1).
  split; [apply nested_checked; vm_compute; reflexivity|]. split; [vm_compute; reflexivity|]. split; [simpl; auto|cbn; lia].
Qed.
Print Assumptions C65_bit_position_refuted.

(** Without the schemas, a bit parameter without a size is not refused: the shift of its largest value is undefined. *)
Theorem C65_bit_size_refuted : exists x, nested x /\ decl_tel x = UB.
Proof.
  exists (el "BitParameterBlock" [("Name", "flags"); ("Size", "8")]%string [el "BitParameter" [("Name", "low"); ("Pos", "3")]%string []]).
  split; [apply nested_checked; vm_compute; reflexivity|vm_compute; reflexivity].
Qed.
Print Assumptions C65_bit_size_refuted.

(** Without the schemas, an instance definition before the library is ignored: the code looks for "InstanceDefintion", does not
    find it and takes the last child.  The subsystem is accepted without its parameters. *)
Theorem C65_definition_order_refuted : exists x s xi d y, conforms x /\ In s (x_elems x) /\ In xi (x_elems s) /\ x_type xi = lit "InstanceDefinition" /\ In d (x_elems xi)
  /\ load_system sd_plugins no_error 1 (lit "Audio") x = Ok y /\ sy_root y = Elem (lit "Audio") KdSystem [Elem (x_name s) KdSubsystem []].
Proof.
  set (d := el "BooleanParameter" [("Name", "a")]%string []). set (xi := el "InstanceDefinition" [] [d]).
  set (s := el "Subsystem" [("Name", "policy"); ("Type", "Virtual")]%string [xi; el "ComponentLibrary" [] []]).
  set (x := el "SystemClass" [("Name", "Audio")]%string [s]). exists x, s, xi, d.
  destruct (load_system sd_plugins no_error 1 (lit "Audio") x) as [y| | |] eqn:E; [|vm_compute in E; discriminate E..]. exists y.
  split; [apply conforms_check; vm_compute; reflexivity|]. split; [simpl; auto|]. split; [simpl; auto|]. split; [reflexivity|]. split; [simpl; auto|]. split; [reflexivity|].
  assert (K : match load_system sd_plugins no_error 1 (lit "Audio") x with Ok y => Some (sy_root y) | _ => None end
    = Some (Elem (lit "Audio") KdSystem [Elem (x_name s) KdSubsystem []])) by (vm_compute; reflexivity).
  rewrite E in K. injection K as ->. reflexivity.
Qed.
Print Assumptions C65_definition_order_refuted.
