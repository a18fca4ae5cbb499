(** Properties of component libraries (C47), of arrays with mapping data (C61) and of the names created (C62). *)
From Coq Require Import List Arith ZArith Bool Ascii String Lia Relations.
From Verif Require Import Base BaseProofs TextModel TextSpec TextProofs ParamTypeModel BitModel TreeModel TreeSpec MapModel MapSpec MapProofs MapProps TypeModel TypeSpec TypeProofs.
Import ListNotations.
Local Open Scope nat_scope.

(** ** C47: loading a structure *)

(** A library and an instance definition are accepted exactly when every mapping attribute has distinct keys, every component
    refers to a type declared before the end of the type it is in, no type has a direct child of its own type and every type
    extends one declared before it. *)
Theorem C47_accepted : forall ts defs, load_structure ts defs <> None <-> structure_accepted ts defs.
Proof.
  intros ts defs. rewrite <- load_structure_ok. destruct (load_structure ts defs) as [[lib ds]|]; split; eauto; try discriminate.
  - intros H. exfalso. auto.
  - intros [lib [ds E]]. discriminate.
Qed.
Print Assumptions C47_accepted.

(** The instances of an accepted structure are created in a finite time exactly when no type needed uses itself. *)
Theorem C47_terminates_partial : forall ts defs lib ds, load_structure ts defs = Some (lib, ds) ->
  ((exists fuel xs, create_instances fuel lib ds = Some xs) <-> forall i, needed ts defs i -> ~ uses ts i i).
Proof. exact terminates_iff. Qed.
Print Assumptions C47_terminates_partial.

(** Accepted structures whose types have no component inside a block always terminate. *)
Theorem C47_flat : forall ts defs lib ds, load_structure ts defs = Some (lib, ds) ->
  (forall t n m l cs ty, In t ts -> In (TBlock n m l cs) (ct_children t) -> ~ mentions (TBlock n m l cs) ty) ->
  exists fuel xs, create_instances fuel lib ds = Some xs.
Proof.
  intros ts defs lib ds H F. apply (terminates_iff _ _ _ _ H). intros i _ [t [n [T [FN [X|[c [I M]]]]]]];
    pose proof (proj1 (load_structure_ok ts defs) (ex_intro _ lib (ex_intro _ ds H))) as SA.
  - destruct (sa_extends _ _ SA i t n T X) as [j [L FN']]. rewrite (first_named_fun _ _ _ _ FN FN') in L. lia.
  - destruct c as [n0 k m|n0 b m bits|n0 m l cs|n0 m l ty]; try (inversion M; fail).
    + apply (F t n0 m l cs n); auto. eapply nth_error_In; eauto.
    + inversion M; subst. apply (sa_not_self _ _ SA i t n0 m l n T I FN).
Qed.
Print Assumptions C47_flat.

(** The number of steps allowed does not change the result. *)
Theorem C47_stable : forall lib ds f g xs ys, create_instances f lib ds = Some xs -> create_instances g lib ds = Some ys -> xs = ys.
Proof.
  intros lib ds f g xs ys A B. destruct (Nat.le_ge_cases f g) as [L|L].
  - rewrite (create_mono lib ds f g xs L A) in B. congruence.
  - rewrite (create_mono lib ds g f ys L B) in A. congruence.
Qed.
Print Assumptions C47_stable.

(** The elements created are the ones described: each block and component with its content, the children of the extended type
    after the ones of the type itself, as many numbered entries as the length of an array, the mapping data of the element before
    the ones of its type. *)
Theorem C47_created : forall ts defs lib ds fuel xs, load_structure ts defs = Some (lib, ds) -> create_instances fuel lib ds = Some xs ->
  Forall2 (creates ts) defs xs.
Proof. exact instances_created. Qed.
Print Assumptions C47_created.

(** A component type with a direct child of its own type, with an unknown type, or extending itself, is an error. *)
Theorem C47_rejected : forall ts defs i t, nth_error ts i = Some t -> (forall j u, j < i -> nth_error ts j = Some u -> ct_name u <> ct_name t) ->
  (exists n m l, In (TComp n m l (ct_name t)) (ct_children t)) \/ ct_extends t = Some (ct_name t)
  \/ (exists n m l ty, In (TComp n m l ty) (ct_children t) /\ forall u, In u ts -> ct_name u <> ty) ->
  load_structure ts defs = None.
Proof.
  intros ts defs i t T F H. destruct (load_structure ts defs) as [[lib ds]|] eqn:E; auto. exfalso.
  pose proof (proj1 (load_structure_ok ts defs) (ex_intro _ lib (ex_intro _ ds E))) as SA. assert (first_named ts (ct_name t) i) as FN by (split; eauto).
  destruct H as [[n [m [l I]]]|[X|[n [m [l [ty [I U]]]]]]].
  - apply (sa_not_self _ _ SA i t n m l _ T I FN).
  - destruct (sa_extends _ _ SA i t _ T X) as [j [L FN']]. rewrite (first_named_fun _ _ _ _ FN FN') in L. lia.
  - destruct (sa_before _ _ SA i t _ ty T I (mn_comp _ _ _ _)) as [j [_ [[u [U1 U2]] _]]]. apply (U u); auto. eapply nth_error_In; eauto.
Qed.
Print Assumptions C47_rejected.

(** Example: a library where [phone] extends [device] and has an array of [channel]s and a block. *)
Definition demo_types : list ctype :=
  [ CType (lit "channel") (lit "Chan:1") None [TLeaf (lit "volume") demo_int (lit "Control:Volume")];
    CType (lit "device") [] None [TBits (lit "flags") 1 [] [(lit "mute", BitType 0 1 1 1); (lit "bass", BitType 1 1 1 1)]];
    CType (lit "phone") (lit "Device:7") (Some (lit "device"))
      [ TComp (lit "channels") [] 2 (lit "channel"); TBlock (lit "block") [] 0 [TComp (lit "inner") (lit "Chan:2") 0 (lit "channel")] ] ].
Definition demo_defs : list tel := [TComp (lit "phone0") (lit "Device:8") 0 (lit "phone"); TLeaf (lit "gain") demo_int []].
Definition demo_created : list inst :=
  let chan n ms := Inst (lit n) KdComponent ms [Inst (lit "volume") demo_int [[(lit "Control", lit "Volume")]] []] in
  let c1 := [(lit "Chan", lit "1")] in
  [ Inst (lit "phone0") KdComponent [[(lit "Device", lit "8")]; [(lit "Device", lit "7")]]
      [ Inst (lit "channels") KdComponent [c1] [chan "0"%string [c1]; chan "1"%string [c1]];
        Inst (lit "block") KdBlock [] [chan "inner"%string [[(lit "Chan", lit "2")]; c1]];
        Inst (lit "flags") (KdBitBlock 1) [] [Inst (lit "mute") (KdBit (BitType 0 1 1 1)) [] []; Inst (lit "bass") (KdBit (BitType 1 1 1 1)) [] []] ];
    Inst (lit "gain") demo_int [] [] ].

Example C47_nonvacuous : exists lib ds, load_structure demo_types demo_defs = Some (lib, ds) /\ create_instances 3 lib ds = Some demo_created
  /\ structure_accepted demo_types demo_defs /\ Forall2 (creates demo_types) demo_defs demo_created.
Proof.
  assert (exists lib ds, load_structure demo_types demo_defs = Some (lib, ds) /\ create_instances 3 lib ds = Some demo_created) as [lib [ds [A B]]].
  { eexists. eexists. split; vm_compute; reflexivity. }
  exists lib, ds. split; auto. split; auto. split; [apply load_structure_ok; eauto|]. eapply instances_created; eauto.
Qed.

Example C47_rejected_cases :
  load_structure [CType (lit "a") [] None [TComp (lit "x") [] 0 (lit "a")]] [] = None
  /\ load_structure [CType (lit "a") [] (Some (lit "a")) []] [] = None
  /\ load_structure [CType (lit "a") [] None [TComp (lit "x") [] 0 (lit "b")]; CType (lit "b") [] None []] [] = None
  /\ load_structure [CType (lit "a") [] None [TLeaf (lit "x") demo_int (lit "K:1,K:2")]] [] = None
  /\ load_structure [CType (lit "a") [] None []] [TComp (lit "x") [] 0 (lit "b")] = None.
Proof. repeat split; vm_compute; reflexivity. Qed.

(** Finding: a component type that contains itself inside a parameter block is accepted (ComponentInstance.cpp:101 only compares
    with the direct parent), and the creation of its instances never ends. *)
Theorem C47_self_refuted : exists ts defs lib ds, load_structure ts defs = Some (lib, ds) /\ forall fuel, create_instances fuel lib ds = None.
Proof.
  exists [CType (lit "a") [] None [TBlock (lit "b") [] 0 [TComp (lit "c") [] 0 (lit "a")]]], [TComp (lit "x") [] 0 (lit "a")].
  eexists. eexists. split; [vm_compute; reflexivity|]. intros fuel.
  match goal with |- create_instances fuel ?l _ = None => assert (luse l 0 0) as U end.
  { eexists. split; [reflexivity|]. right. eexists. split; [left; reflexivity|]. eapply lr_block; [left; reflexivity|]. constructor. }
  pose proof (self_use_diverges _ _ U fuel) as H.
  unfold create_instances. cbn [load_all inst_one]. rewrite H. auto.
Qed.
Print Assumptions C47_self_refuted.

(** The mapping data of a loaded structure has distinct keys, hence the results on the mapping apply to it. *)
Theorem C40_loaded : forall ts defs lib ds fuel xs sb nm, load_structure ts defs = Some (lib, ds) -> create_instances fuel lib ds = Some xs ->
  sb_virtual sb = false -> few_keys sb -> distinct_keys (sb_maps sb) ->
  (mappable sb (sub_base sb) (Inst nm KdSubsystem [] xs) <-> exists objs, map_subsystem sb xs = Ok objs)
  /\ (~ mappable sb (sub_base sb) (Inst nm KdSubsystem [] xs) <-> map_subsystem sb xs = Err).
Proof.
  intros ts defs lib ds fuel xs sb nm H C V F D. apply C40_accepted; auto. apply tree_keys_root. intros c I.
  destruct (Forall2_In_r _ _ _ _ _ _ (instances_created _ _ _ _ _ _ H C) I) as [t [_ X]]. eapply creates_keys; eauto.
Qed.
Print Assumptions C40_loaded.

(** ** C61: arrays with mapping data *)

(** An array of blocks or components, reached by the mapping, that gives a context key and has no key of a creator: the mapping
    always fails, because each entry gives the key again. *)
Theorem C61_context_key : forall ts defs lib ds fuel xs sb nm p t x i k v,
  load_structure ts defs = Some (lib, ds) -> create_instances fuel lib ds = Some xs ->
  sb_virtual sb = false -> few_keys sb -> distinct_keys (sb_maps sb) ->
  is_array t -> creates ts t x -> reached sb (Inst nm KdSubsystem [] xs) p x -> ~ keyed sb x ->
  nth_error (sb_keys sb) i = Some k -> given (in_maps x) k v ->
  map_subsystem sb xs = Err.
Proof.
  intros ts defs lib ds fuel xs sb nm p t x i k v H C V F D A X R NK K G. destruct (array_entry _ _ _ X A) as [en [E1 [E2 _]]].
  apply (C40_loaded ts defs lib ds fuel xs sb nm H C V F D). eapply array_refused; eauto.
Qed.
Print Assumptions C61_context_key.

(** With the key of a creator, the whole array is one object: nothing inside it is reached. *)
Theorem C61_one_object : forall ts defs lib ds fuel xs sb nm p t x objs,
  load_structure ts defs = Some (lib, ds) -> create_instances fuel lib ds = Some xs ->
  sb_virtual sb = false -> few_keys sb -> distinct_keys (sb_maps sb) ->
  is_array t -> creates ts t x -> reached sb (Inst nm KdSubsystem [] xs) p x -> keyed sb x -> map_subsystem sb xs = Ok objs ->
  In p (map ob_pos objs) /\ (forall q, q <> [] -> ~ In (p ++ q) (map ob_pos objs)).
Proof.
  intros ts defs lib ds fuel xs sb nm p t x objs H C V F D A X R K E.
  assert (tree_keys (Inst nm KdSubsystem [] xs)) as TK.
  { apply tree_keys_root. intros c I. destruct (Forall2_In_r _ _ _ _ _ _ (instances_created _ _ _ _ _ _ H C) I) as [u [_ Y]]. eapply creates_keys; eauto. }
  destruct (C40_objects sb nm xs objs V F D TK E) as [O _]. split; [apply O; eauto|]. intros q NE I. apply O in I. destruct I as [y [[_ Y] _]].
  destruct R as [R _]. apply (Y p q x eq_refl NE R K).
Qed.
Print Assumptions C61_one_object.

Definition demo_array_defs : list tel := [TBlock (lit "bands") (lit "Device:7") 2 [TLeaf (lit "gain") demo_int (lit "Control:Gain")]].
Definition demo_object_defs : list tel := [TBlock (lit "bands") (lit "Device:7,Bytes:x") 2 [TLeaf (lit "gain") demo_int []]].

(** Finding: giving a context key to an array of blocks makes the mapping of the subsystem fail, although the key is given only once in
    the description and the same block without an array length is accepted. *)
Theorem C61_array_refuted : exists sb n m cs lib ds ds1 xs xs1, few_keys sb /\ distinct_keys (sb_maps sb)
  /\ load_structure [] [TBlock n m 0 cs] = Some (lib, ds1) /\ create_instances 1 lib ds1 = Some xs1 /\ (exists objs, map_subsystem sb xs1 = Ok objs)
  /\ load_structure [] [TBlock n m 2 cs] = Some (lib, ds) /\ create_instances 1 lib ds = Some xs /\ map_subsystem sb xs = Err.
Proof.
  exists demo_sub, (lit "bands"), (lit "Device:7"), [TLeaf (lit "gain") demo_int (lit "Control:Gain")]. do 5 eexists.
  split; [unfold few_keys; simpl; lia|]. split; [intros d [<-|[]]; apply nodup_b_spec; reflexivity|]. split; [vm_compute; reflexivity|].
  split; [vm_compute; reflexivity|]. split; [eexists; vm_compute; reflexivity|]. repeat split; vm_compute; reflexivity.
Qed.
Print Assumptions C61_array_refuted.

Example C61_nonvacuous : exists lib ds x,
  load_structure [] demo_array_defs = Some (lib, ds) /\ create_instances 1 lib ds = Some [x]
  /\ (forall t, In t demo_array_defs -> is_array t /\ creates [] t x) /\ reached demo_sub (Inst (lit "sub") KdSubsystem [] [x]) [0] x /\ ~ keyed demo_sub x
  /\ nth_error (sb_keys demo_sub) 1 = Some (lit "Device") /\ given (in_maps x) (lit "Device") (lit "7").
Proof.
  assert (exists lib ds x, load_structure [] demo_array_defs = Some (lib, ds) /\ create_instances 1 lib ds = Some [x] /\ in_maps x = [[(lit "Device", lit "7")]]) as [lib [ds [x [A [B M]]]]].
  { eexists. eexists. eexists. repeat split; vm_compute; reflexivity. }
  exists lib, ds, x. split; auto. split; auto. pose proof (instances_created _ _ _ _ _ _ A B) as C. inversion C; subst.
  split; [intros t [<-|[]]; split; [discriminate|auto]|]. split.
  { split; [reflexivity|]. intros q r y E NE Y [j [c [v [_ [[l [d [t [X _]]]] _]]]]]. destruct q as [|z q]; simpl in Y; [inversion Y; subst; simpl in X; destruct l; discriminate|].
    inversion E as [[E1 E2]]. symmetry in E2. apply app_eq_nil in E2. destruct E2. contradiction. }
  split.
  { intros [j [c [v [N [[l [d [t [X [I _]]]]] _]]]]]. rewrite M in X. destruct l as [|z [|]]; inversion X; subst. destruct I as [I|[]].
    destruct j as [|[|j]]; simpl in N; inversion N; subst; try discriminate. destruct j; discriminate. }
  split; [reflexivity|]. rewrite M. exists [], [(lit "Device", lit "7")], []. split; auto. split; [left; auto|]. intros d' v' [].
Qed.

Example C61_object_nonvacuous : exists lib ds xs, load_structure [] demo_object_defs = Some (lib, ds) /\ create_instances 1 lib ds = Some xs
  /\ map_subsystem demo_sub xs = Ok [Object [0] 1 (lit "x") [Some (lit "Card", lit "hw:0"); Some (lit "Device", lit "7")]].
Proof. eexists. eexists. eexists. repeat split; vm_compute; reflexivity. Qed.

(** ** C62: names of the elements created *)

(** When the names of the description are non-empty, have no slash and are distinct among the children of each block and among
    the children of each type and of the types it extends, every element has its own path. *)
Theorem C62_names : forall n subs, n <> [] -> ~ In "/"%char n -> NoDup (map fst subs) ->
  (forall s, In s subs -> fst s <> [] /\ ~ In "/"%char (fst s)
     /\ exists ts defs lib ds fuel, names_accepted ts defs /\ load_structure ts defs = Some (lib, ds) /\ create_instances fuel lib ds = Some (snd s)) ->
  names_ok (system_elem n subs).
Proof.
  intros n subs N1 N2 ND H.
  assert (forall s p e, In s subs -> elem_at (subsystem_elem s) p = Some e -> ~ In "/"%char (path_name e) /\ forall i j c d, nth_error (e_children e) i = Some c ->
        nth_error (e_children e) j = Some d -> path_name c = path_name d -> i = j) as S.
  { intros [sn xs] p e I. destruct (H _ I) as [S1 [S2 [ts [defs [lib [ds [fuel [NA [L C]]]]]]]]]. simpl in S1, S2, C. pose proof (instances_created _ _ _ _ _ _ L C) as CR.
    apply subsystem_names; auto.
    - rewrite (creates_names_map _ _ _ CR). apply NA.
    - intros x Ix. destruct (Forall2_In_r _ _ _ _ _ _ CR Ix) as [t [It X]]. eapply creates_names; eauto. apply NA. auto. }
  split; [exact N1|]. split.
  - intros p e E. destruct p as [|k p]; simpl in E; [inversion E; subst; rewrite path_name_named; auto|]. rewrite nth_error_map in E.
    destruct (nth_error subs k) as [s|] eqn:X; [|discriminate]. apply nth_error_In in X. apply (S s p e X E).
  - intros p e i j c d E. destruct p as [|k p]; simpl in E.
    + inversion E; subst. simpl. intros Hi Hj P. rewrite nth_error_map in *. destruct (nth_error subs i) as [x|] eqn:X; [|discriminate].
      destruct (nth_error subs j) as [y|] eqn:Y; [|discriminate]. inversion Hi; inversion Hj; subst.
      destruct (H x (nth_error_In _ _ X)) as [X1 _]. destruct (H y (nth_error_In _ _ Y)) as [Y1 _]. rewrite !path_name_named in P by auto. simpl in P.
      apply (proj1 (NoDup_nth_error _) ND); [rewrite map_length; apply nth_error_Some; congruence|]. rewrite !nth_error_map, X, Y. simpl. congruence.
    + rewrite nth_error_map in E. destruct (nth_error subs k) as [s|] eqn:X; [|discriminate]. apply nth_error_In in X. apply (S s p e X E).
Qed.
Print Assumptions C62_names.

(** Conversely, when a type that is needed creates two children of the same name, two elements share the same path. *)
Theorem C62_shared_path : forall ts defs lib ds fuel xs sn i ns a b n,
  load_structure ts defs = Some (lib, ds) -> create_instances fuel lib ds = Some xs ->
  needed ts defs i -> created_names ts i ns -> a <> b -> nth_error ns a = Some n -> nth_error ns b = Some n -> n <> [] ->
  exists p q e f, p <> q /\ elem_at (subsystem_elem (sn, xs)) p = Some e /\ elem_at (subsystem_elem (sn, xs)) q = Some f
    /\ path_in (subsystem_elem (sn, xs)) p = path_in (subsystem_elem (sn, xs)) q.
Proof.
  intros ts defs lib ds fuel xs sn i ns a b n H C N CN AB A B E. apply clash_paths. eapply needed_clash; eauto. eapply instances_created; eauto.
Qed.
Print Assumptions C62_shared_path.

(** Finding: nothing rejects a type that declares a child of the same name as a child of the type it extends; the second child cannot
    be designated: the path leads to the first one. *)
Definition clash_types : list ctype :=
  [ CType (lit "base") [] None [TLeaf (lit "volume") demo_int []]; CType (lit "more") [] (Some (lit "base")) [TLeaf (lit "volume") (KdString 4) []] ].
Theorem C62_refuted : exists ts defs lib ds xs root p q, load_structure ts defs = Some (lib, ds) /\ create_instances 2 lib ds = Some xs
  /\ (forall t, In t ts -> NoDup (map tel_name (ct_children t))) /\ root = subsystem_elem (lit "sub", xs)
  /\ p <> q /\ elem_at root p <> None /\ elem_at root q <> None /\ path_in root p = path_in root q /\ locate root (path_in root q) = Some p.
Proof.
  exists clash_types, [TComp (lit "x") [] 0 (lit "more")]. eexists. eexists. eexists. eexists. exists [0; 0], [0; 1].
  split; [vm_compute; reflexivity|]. split; [vm_compute; reflexivity|]. split.
  { intros t [<-|[<-|[]]]; repeat constructor; simpl; auto. }
  split; [reflexivity|]. split; [discriminate|]. repeat split; vm_compute; congruence.
Qed.
Print Assumptions C62_refuted.

Example C62_nonvacuous : names_accepted demo_types demo_defs /\ names_ok (system_elem (lit "sys") [(lit "sub", demo_created)]).
Proof.
  assert (names_accepted demo_types demo_defs) as NA.
  { assert (forall n, forallb (fun c => negb (Ascii.eqb c "/")) n = true -> ~ In "/"%char n) as NS.
    { intros n H I. rewrite forallb_forall in H. apply H in I. discriminate. }
    split; [apply nodup_b_spec; reflexivity|]. split; [|split].
    - intros c [<-|[<-|[]]]; constructor; try discriminate; apply NS; reflexivity.
    - intros t c It Ic. simpl in It. repeat (destruct It as [<-|It]); try contradiction; simpl in Ic; repeat (destruct Ic as [<-|Ic]); try contradiction;
        constructor; try discriminate; try (apply NS; reflexivity); try (apply nodup_b_spec; reflexivity).
      + intros x [<-|[<-|[]]]; split; try discriminate; apply NS; reflexivity.
      + intros d [<-|[]]. constructor; try discriminate; apply NS; reflexivity.
    - intros i ns H. assert (exists i', i' < 3 /\ i = i') as [i' [L ->]].
      { exists i. split; auto. assert (i < List.length demo_types); [|simpl in *; lia]. inversion H; apply nth_error_Some; congruence. }
      assert (created_names demo_types 0 [lit "volume"]) as C0 by (apply (cn_alone demo_types 0 _ eq_refl eq_refl)).
      assert (created_names demo_types 1 [lit "flags"]) as C1 by (apply (cn_alone demo_types 1 _ eq_refl eq_refl)).
      assert (created_names demo_types 2 ([lit "channels"; lit "block"] ++ [lit "flags"])) as C2.
      { apply (cn_extends demo_types 2 _ (lit "device") 1 _ eq_refl eq_refl); auto. split; [eexists; split; reflexivity|].
        intros [|j] u Lj; [|lia]. simpl. intros E. inversion E; subst. discriminate. }
      destruct i' as [|[|[|]]]; [| | |lia].
      + rewrite (created_names_fun _ _ _ H _ C0). apply nodup_b_spec. reflexivity.
      + rewrite (created_names_fun _ _ _ H _ C1). apply nodup_b_spec. reflexivity.
      + rewrite (created_names_fun _ _ _ H _ C2). apply nodup_b_spec. reflexivity. }
  split; auto. destruct C47_nonvacuous as [lib [ds [L [C _]]]]. apply C62_names.
  - discriminate.
  - intros I. simpl in I. repeat (destruct I as [I|I]; [discriminate|]). auto.
  - repeat constructor; simpl; auto.
  - intros s [<-|[]]. split; [discriminate|]. split; [intros I; simpl in I; repeat (destruct I as [I|I]; [discriminate|]); auto|].
    exists demo_types, demo_defs, lib, ds, 3. auto.
Qed.
