(** Properties of exported structures (C67). *)
From Coq Require Import List Arith ZArith QArith Qabs Bool Ascii String Lia.
From Verif Require Import Base BaseProofs TextModel RealModel RealSpec ParamTypeModel BitModel TreeModel MapModel TypeModel XmlModel SyncModel DomXmlModel DeclModel DeclSpec DeclDemo
  StrucModel StrucSpec StrucProofs.
Import ListNotations.
Local Open Scope Z_scope.

(** ** C67: exported structures *)

(** The documents of the elements of a subsystem, put in an instance definition, declare these elements again, whatever the
    library beside them: same names, types, ranges, bit fields and lengths, in the same order. *)
Theorem C67_reload : forall ts lt fuel es, (forall e, In e es -> elem_wf e = true /\ exportable e) -> load_library [] ts = Some lt ->
  exists defs ds xs, each decl_tel (map structure_xml es) = Ok defs /\ load_structure ts defs = Some (lt, ds) /\ create_instances fuel lt ds = Some xs
    /\ Forall2 same_structure es (map forget xs).
Proof.
  intros ts lt fuel es H L. destruct (reload_all es) as (defs & D & K); [intros c I; destruct (H c I); apply element_reloads; auto|].
  destruct (K (map ct_name ts) None) as (ds & D1 & K1). destruct (K1 (populate fuel lt) lt) as (xs & X1 & X2).
  exists defs, ds, xs. unfold load_structure. rewrite L, D1. auto.
Qed.
Print Assumptions C67_reload.

(** A structure file written from the documents of the elements of each subsystem, for a virtual subsystem type, gives the same
    system. *)
Theorem C67_system : forall lib hw fuel nm ty pl subs, lib ty = Some pl -> pl_virtual pl = true ->
  (forall s, In s subs -> e_kind s = KdSubsystem /\ forall c, In c (e_children s) -> elem_wf c = true /\ exportable c) ->
  exists y, load_system lib hw fuel nm (structure_file nm ty (map (fun s => (e_name s, map structure_xml (e_children s))) subs)) = Ok y
    /\ same_structure (Elem nm KdSystem subs) (sy_root y).
Proof. exact system_reloads. Qed.
Print Assumptions C67_system.

(** Elements with the same structure have their parameters at the same places, under the same paths when they have names, and
    are as well formed. *)
Theorem C67_same_layout : forall e e', same_structure e e' ->
  footprint e = footprint e' /\ (forall p, offset e p = offset e' p)
  /\ (forall p, match elem_at e p, elem_at e' p with Some a, Some b => same_structure a b | None, None => True | _, _ => False end)
  /\ ((forall p x, elem_at e p = Some x -> e_name x <> []) -> forall p, path_in e p = path_in e' p)
  /\ (elem_wf e = true -> elem_wf e' = true).
Proof.
  intros e e' H. split; [apply same_footprint; auto|]. split; [intros p; apply same_offset; auto|]. split; [intros p; apply same_at; auto|].
  split; [intros N p; apply same_path; auto|apply same_wf; auto].
Qed.
Print Assumptions C67_same_layout.

(** The parameter read back accepts the same texts and numbers, stores and shows them the same way, and has the same default. *)
Theorem C67_same_values : forall n t e' f, same_structure (Elem n (KdParam t) []) e' ->
  exists t', e' = Elem n (KdParam t') []
    /\ (forall s, to_bb_str t f s = to_bb_str t' f s) /\ (forall v, to_bb_val t f v = to_bb_val t' f v)
    /\ (forall u, from_bb_str t f u = from_bb_str t' f u) /\ (forall k u, from_bb_val t k u = from_bb_val t' k u) /\ pt_default t = pt_default t'.
Proof.
  intros n t e' f H. inversion H as [n' k k' cs cs' S F]; subst. apply same_class_cases in S. destruct S as (t' & -> & T). inversion F; subst. exists t'. split; [reflexivity|]. apply same_values; auto.
Qed.
Print Assumptions C67_same_values.

(** Elements that differ by more than that have different documents. *)
Theorem C67_tells_apart : forall e e', elem_wf e = true -> exportable e -> elem_wf e' = true -> exportable e' -> structure_xml e = structure_xml e' ->
  exists x, same_structure e x /\ same_structure e' x.
Proof.
  intros e e' W X W' X' E. destruct (element_reloads e W X) as (t & D & L). destruct (element_reloads e' W' X') as (t' & D' & L').
  rewrite E in D. assert (t' = t) by congruence. subst t'. destruct (L [] None) as (l & L1 & L2), (L' [] None) as (l' & M1 & M2). assert (l' = l) by congruence. subst l'.
  destruct (L2 (fun _ => None) []) as (x & X1 & X2), (M2 (fun _ => None) []) as (x' & Y1 & Y2). assert (x' = x) by congruence. subst x'. eauto.
Qed.
Print Assumptions C67_tells_apart.

Example C67_tells_apart_nonvacuous : let e := Elem (lit "a") KdBlock [Elem (lit "b") (KdArray (PEnum 1 [(lit "x", -3)]) 2) []] in
  let e' := Elem (lit "a") KdComponent [Elem (lit "b") (KdArray (PEnum 1 [(lit "x", -3)]) 2) []] in
  elem_wf e = true /\ exportable e /\ elem_wf e' = true /\ exportable e' /\ structure_xml e = structure_xml e' /\ e <> e'.
Proof.
  cbv zeta. split; [reflexivity|]. split; [constructor; [exact I|]; intros c [<-|[]]; constructor; [cbn; auto with zarith|intros c []]|].
  split; [reflexivity|]. split; [constructor; [exact I|]; intros c [<-|[]]; constructor; [cbn; auto with zarith|intros c []]|]. split; [reflexivity|discriminate].
Qed.

(** The demonstration system, and the file made of its exported elements. *)
Definition sd_system : system :=
  match load_system sd_plugins no_error 5 (lit "Audio") sd with Ok y => y | _ => Sys (Elem [] KdSystem []) (fun _ => None) no_error end.
Definition sd_file (ty : string) : xnode :=
  structure_file (lit "Audio") (lit ty) (map (fun s => (e_name s, map structure_xml (e_children s))) (e_children (sy_root sd_system))).

Fixpoint elems_in (e : elem) : list elem := match e with Elem _ _ cs => e :: flat_map elems_in cs end.
Lemma exportable_in : forall e, (forall x, In x (elems_in e) -> kind_exportable (e_kind x)) -> exportable e.
Proof.
  induction e as [n k cs IH] using TreeProofs.elem_ind_nested. intros H. rewrite Forall_forall in IH. constructor; [apply (H (Elem n k cs)); left; reflexivity|].
  intros c I. apply IH; [auto|]. intros x Ix. apply H. cbn [elems_in]. right. apply in_flat_map. eauto.
Qed.
Lemma sd_exportable : forall s, In s (e_children (sy_root sd_system)) -> e_kind s = KdSubsystem /\ forall c, In c (e_children s) -> elem_wf c = true /\ exportable c.
Proof.
  let r := eval vm_compute in (sy_root sd_system) in assert (R : sy_root sd_system = r) by (vm_compute; reflexivity). rewrite R. clear R.
  intros s Hs. cbn [e_children] in Hs. 
  destruct Hs as [<-|[<-|[]]]; (split; [reflexivity|]); cbn [e_children]; intros c Hc; repeat destruct Hc as [<-|Hc]; try (destruct Hc; fail);
    (split; [reflexivity|]); apply exportable_in; intros x Hx; cbn [elems_in flat_map app] in Hx; repeat destruct Hx as [<-|Hx]; try (destruct Hx; fail);
    cbn [e_kind kind_exportable]; auto; try (cbn; lia).
  split.
  - left. exists 1500000. split; [lia|]. vm_compute. reflexivity.
  - right. split; [|exists 20; vm_compute; reflexivity]. exists 20, 0. split; [vm_compute; reflexivity|]. cbn. lia.
Qed.

Example C67_system_nonvacuous : exists y, load_system sd_plugins no_error 5 (lit "Audio") (sd_file "Virtual") = Ok y /\ same_structure (Elem (lit "Audio") KdSystem (e_children (sy_root sd_system))) (sy_root y)
  /\ footprint (sy_root sd_system) = 32%nat /\ footprint (sy_root y) = 32%nat.
Proof.
  destruct (C67_system sd_plugins no_error 5 (lit "Audio") (lit "Virtual") (Plugin [] [] true) (e_children (sy_root sd_system)) eq_refl eq_refl sd_exportable) as (y & E & S).
  exists y. split; [exact E|]. split; [exact S|]. split; [vm_compute; reflexivity|]. destruct (C67_same_layout _ _ S) as [<- _]. vm_compute. reflexivity.
Qed.

(** The bounds of a floating point parameter are written with six decimals: a smaller minimum becomes 0, and the parameter read
    back accepts what the first one refuses. *)
Theorem C67_float_bound_refuted : exists e n t t' s f, e = Elem n (KdParam t) [] /\ elem_wf e = true /\ decl_tel (structure_xml e) = Ok (TLeaf n (KdParam t') [])
  /\ to_bb_str t f s = Err /\ exists u, to_bb_str t' f s = Ok u.
Proof.
  exists (Elem (lit "x") (KdParam (PFloat (1 # 8388608) 1)) []), (lit "x"), (PFloat (1 # 8388608) 1).
  destruct (decl_tel (structure_xml (Elem (lit "x") (KdParam (PFloat (1 # 8388608) 1)) []))) as [[n k m| | |]| | |] eqn:E; try (vm_compute in E; discriminate E).
  destruct k as [| | | | | |t'| |]; try (vm_compute in E; discriminate E). exists t', (lit "0"), (Fmt false false).
  split; [reflexivity|]. split; [reflexivity|]. vm_compute in E. injection E as En Et Em. subst. split; [reflexivity|]. split; [vm_compute; reflexivity|]. exists 0. vm_compute. reflexivity.
Qed.
Print Assumptions C67_float_bound_refuted.

(** An integer parameter with an adaptation, as accepted in a structure file, has a document that is refused; and the document
    does not say which adaptation it is. *)
Theorem C67_adaptation_refuted : exists x t ads ads', conforms x /\ decl_int x = Ok (t, ads) /\ ads' <> ads
  /\ param_xml (x_name x) t ads = param_xml (x_name x) t ads' /\ decl_tel (param_xml (x_name x) t ads) = Err.
Proof.
  exists (el "IntegerParameter" [("Name", "volume"); ("Size", "8")]%string [el "LinearAdaptation" [("SlopeNumerator", "2.5"); ("Offset", "-3")]%string []]).
  destruct (decl_int (el "IntegerParameter" [("Name", "volume"); ("Size", "8")]%string [el "LinearAdaptation" [("SlopeNumerator", "2.5"); ("Offset", "-3")]%string []])) as [[t ads]| | |] eqn:E;
    try (vm_compute in E; discriminate E).
  exists t, ads, [ALinear 0 1 1]. split; [apply conforms_check; vm_compute; reflexivity|]. split; [reflexivity|]. vm_compute in E. injection E as Et Ea. subst.
  split; [discriminate|]. split; vm_compute; reflexivity.
Qed.
Print Assumptions C67_adaptation_refuted.

(** The mapping is not exported: with the subsystem type of the first system, the file is accepted and the same elements are
    created, but no parameter is sent to the hardware any more. *)
Theorem C67_mapping_refuted : exists y, load_system sd_plugins no_error 5 (lit "Audio") (sd_file "Card") = Ok y
  /\ footprint (sy_root y) = footprint (sy_root sd_system) /\ (forall p, sy_own y p = None) /\ exists p s, sy_own sd_system p = Some s.
Proof.
  destruct (load_system sd_plugins no_error 5 (lit "Audio") (sd_file "Card")) as [y| | |] eqn:E; [|vm_compute in E; discriminate E..].
  exists y. split; [reflexivity|]. split.
  - assert (K : match load_system sd_plugins no_error 5 (lit "Audio") (sd_file "Card") with Ok y => Some (footprint (sy_root y)) | _ => None end = Some (footprint (sy_root sd_system))) by (vm_compute; reflexivity).
    rewrite E in K. congruence.
  - split.
    + unfold load_system in E. match type of E with context [if ?b then _ else _] => destruct b; [|discriminate] end.
      destruct (each (load_subsystem sd_plugins 5) (x_elems (sd_file "Card"))) as [subs| | |] eqn:S; [|discriminate..]. cbn [obind] in E.
      destruct (map_subsystems (map snd subs)) as [objs| | |] eqn:M; [|discriminate..]. cbn [obind] in E. injection E as <-. intros p. cbn [sy_own].
      vm_compute in S. injection S as <-. vm_compute in M. injection M as <-. reflexivity.
    + exists [0; 0; 0; 1]%nat. eexists. vm_compute. reflexivity.
Qed.
Print Assumptions C67_mapping_refuted.

(** The document of the whole system (getSystemClassXML) cannot be used as a structure file: it has no subsystem type and no
    library. *)
Theorem C67_system_class_refuted : exists x y, conforms x /\ nested x /\ load_system sd_plugins no_error 5 (lit "Audio") x = Ok y
  /\ load_system sd_plugins no_error 5 (lit "Audio") (structure_xml (sy_root y)) = Err.
Proof.
  exists sd, sd_system. split; [exact sd_conforms|]. split; [exact sd_nested|]. split; [|vm_compute; reflexivity].
  unfold sd_system. destruct (load_system sd_plugins no_error 5 (lit "Audio") sd) as [y| | |] eqn:E; [reflexivity|vm_compute in E; discriminate E..].
Qed.
Print Assumptions C67_system_class_refuted.
