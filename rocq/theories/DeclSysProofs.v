(** Proofs about the systems made by the structure files. *)
From Coq Require Import List Arith ZArith QArith Qabs Bool Ascii String Lia.
From Verif Require Import Base BaseProofs TextModel TextSpec TextProofs TextProps RealModel RealSpec RealProofs ParamTypeModel ParamTypeSpec BitModel TreeModel TreeSpec
  MapModel MapSpec MapProofs MapProps TypeModel TypeSpec TypeProofs TypeProps XmlModel SyncModel DomainSpec MgrSpec ValueProofs DomXmlModel DeclModel DeclSpec DeclProofs.
Import ListNotations.
Local Open Scope Z_scope.

(** ** Definedness *)

Lemma settled_Ok : forall A (a : A), settled (Ok a).
Proof. right; eauto. Qed.
Lemma settled_Err : forall A, settled (@Err A).
Proof. left; auto. Qed.
Lemma settled_bind : forall A B (o : outcome A) (f : A -> outcome B), settled o -> (forall a, o = Ok a -> settled (f a)) -> settled (obind o f).
Proof. intros A B o f [->|(a & ->)] H; simpl; [left; auto|apply H; auto]. Qed.
Lemma settled_each : forall A B (f : A -> outcome B) l, (forall x, In x l -> settled (f x)) -> settled (each f l).
Proof.
  induction l as [|x l IH]; simpl; intros H; [apply settled_Ok|]. apply settled_bind; [apply H; auto|intros y _].
  apply settled_bind; [apply IH; auto|intros ys _; apply settled_Ok].
Qed.
Lemma settled_num : forall t nm d x, settled (attr_num t nm d x).
Proof. intros. apply attr_num_settled. Qed.
Lemma settled_real : forall cv nm d x, settled (attr_real cv nm d x).
Proof. intros. apply attr_real_settled. Qed.
Lemma settled_bool : forall nm d x, settled (attr_bool nm d x).
Proof. intros. unfold attr_bool. destruct (x_attr nm x) as [s|]; [|apply settled_Ok]. destruct (convert_bool s); [apply settled_Ok|apply settled_Err]. Qed.
Lemma settled_no_child : forall x, settled (no_child x).
Proof. intros. unfold no_child. destruct (x_elems x); [apply settled_Ok|apply settled_Err]. Qed.
Lemma settled_length : forall x, settled (decl_length x).
Proof. intros. unfold decl_length, omap. apply settled_bind; [apply settled_num|intros; apply settled_Ok]. Qed.

Ltac settle := repeat first
  [apply settled_Ok | apply settled_Err | apply settled_num | apply settled_real | apply settled_bool | apply settled_no_child | apply settled_length
  | apply settled_bind; [|intros ? ?]
  | match goal with |- settled (if ?b then _ else _) => destruct b eqn:? end].

Lemma settled_linear : forall x, settled (decl_linear x).
Proof. intros. unfold decl_linear. settle. Qed.

Lemma settled_adaptation : forall x, In (x_type x) (allowed_in (lit "IntegerParameter")) -> settled (decl_adaptation x).
Proof.
  intros x H. change (allowed_in (lit "IntegerParameter")) with [lit "LinearAdaptation"; lit "LogarithmicAdaptation"] in H.
  unfold decl_adaptation. destruct H as [H|[H|[]]]; rewrite <- H; tags.
  - apply settled_bind; [apply settled_linear|intros [[? ?] ?] _; apply settled_Ok].
  - apply settled_bind; [apply settled_real|intros base _]. destruct (Qle_bool base 0 || Qeq_bool base 1); [apply settled_Err|].
    apply settled_bind; [|intros fl _; apply settled_bind; [apply settled_linear|intros [[? ?] ?] _; apply settled_Ok]].
    destruct (x_attr (lit "FloorValue") x) as [s|]; [|apply settled_Ok]. destruct (convert_double s); [apply settled_Ok|apply settled_Err].
Qed.

Lemma nested_child : forall x c, nested x -> In c (x_elems x) -> nested c.
Proof. intros x c H Hc y Hy. apply H. econstructor; eauto. Qed.
Lemma nested_allowed : forall x c, nested x -> In c (x_elems x) -> In (x_type c) (allowed_in (x_type x)).
Proof. intros x c H Hc. apply (H x (ins_self x)). auto. Qed.

Lemma settled_bit : forall b x, (b <= 8)%nat -> conforms x -> x_type x = lit "BitParameter" -> settled (decl_bit b x).
Proof.
  intros b x B Hcf T. assert (Hc := conforms_chars _ Hcf). destruct (Hcf x (ins_self x)) as [_ _ _ _ _ Kp Ks]. destruct (Ks T) as [Ns Ks'].
  unfold decl_bit. rewrite T. tags. apply settled_bind; [apply settled_num|intros bp _]. apply settled_bind; [apply settled_num|intros sz Hs].
  apply attr_size_Ok in Hs; auto. assert (Rs : 1 <= sz <= 64) by exact (size_attr_text _ _ _ _ Ks' Ns Hs).
  destruct (_ <? to_ctype _ _); [apply settled_Err|].
  assert (U : (sz <? 1) || (64 <? sz) = false) by (apply orb_false_iff; split; apply Z.ltb_ge; lia). rewrite U. cbv zeta. settle.
Qed.

Lemma decl_tel_settled : forall x, conforms x -> nested x -> In (x_type x) block_group -> settled (decl_tel x).
Proof.
  induction x as [s|ty a c IH] using xnode_ind_nested; intros Hcf Hn Hin; [apply settled_Err|].
  rewrite decl_tel_unfold. cbv zeta. set (x := XElem ty a c) in *. assert (Ty : x_type x = ty) by reflexivity. rewrite Ty in Hin.
  assert (Hc := conforms_chars _ Hcf). apply settled_bind; [apply settled_length|intros len _].
  assert (LF : forall k, settled k -> settled (leaf x k)) by (intros k Hk; unfold leaf; apply settled_bind; [auto|intros; apply settled_Ok]).
  change block_group with [lit "BooleanParameter"; lit "IntegerParameter"; lit "EnumParameter"; lit "FixedPointParameter"; lit "FloatingPointParameter";
           lit "BitParameterBlock"; lit "StringParameter"; lit "Component"; lit "ParameterBlock"] in Hin.
  repeat (destruct Hin as [Hin|Hin]); [..|destruct Hin]; rewrite <- Hin; tags.
  - apply LF. settle.
  - apply LF. apply settled_bind; [|intros; apply settled_Ok]. unfold decl_int. settle.
    apply settled_each. intros y Hy. apply settled_adaptation. rewrite Hin, <- Ty. apply nested_allowed; auto.
  - apply LF. apply settled_bind; [|intros; apply settled_Ok]. unfold decl_enum. destruct (x_attr (lit "Size") x); [|apply settled_Err].
    destruct (convertTo t_uint64 _); [|apply settled_Err]. apply settled_bind; [|intros; apply settled_Ok]. apply settled_each. intros y Hy.
    assert (K := nested_allowed _ _ Hn Hy). rewrite Ty, <- Hin in K. destruct K as [K|[]]. unfold decl_pair. change (x_type y) with (x_type y) in K.
    rewrite <- K. tags. settle.
  - apply LF. apply settled_bind; [|intros; apply settled_Ok]. unfold decl_fix. settle.
  - apply LF. apply settled_bind; [|intros; apply settled_Ok]. unfold decl_float. settle.
  - apply settled_bind; [apply settled_num|intros bits Hb]. apply attr_size_Ok in Hb; auto.
    destruct (block_bytes x bits Hcf ltac:(congruence) Hb) as [_ B8]. apply settled_bind; [|intros; apply settled_Ok].
    apply settled_each. intros y Hy. assert (K := nested_allowed _ _ Hn Hy). rewrite Ty, <- Hin in K. destruct K as [K|[]].
    apply settled_bit; [lia|eapply conforms_child; eauto|auto].
  - apply LF. settle.
  - destruct (x_elems x) as [|y r] eqn:E; [apply settled_Ok|].
    assert (K := nested_allowed x y Hn). rewrite E, Ty, <- Hin in K. destruct (K (or_introl eq_refl)).
  - apply settled_bind; [|intros; apply settled_Ok]. apply settled_each. intros y Hy. rewrite Forall_forall in IH.
    apply IH; [apply (x_elems_In ty a); auto|eapply conforms_child; eauto|eapply nested_child; eauto|].
    assert (K := nested_allowed _ _ Hn Hy). rewrite Ty, <- Hin in K. exact K.
Qed.

(** ** Libraries *)

Lemma decl_type_settled : forall x, conforms x -> nested x -> x_type x = lit "ComponentType" -> settled (decl_type x).
Proof.
  intros x Hcf Hn T. unfold decl_type. rewrite T. tags. settle. apply settled_each. intros y Hy.
  apply decl_tel_settled; [eapply conforms_child; eauto|eapply nested_child; eauto|].
  assert (K := nested_allowed _ _ Hn Hy). rewrite T in K. exact K.
Qed.

Lemma each_declares : forall l ts, (forall y, In y l -> conforms y) -> each decl_tel l = Ok ts -> Forall2 declares l ts.
Proof.
  intros l ts K H. apply each_Ok in H. induction H; constructor; [eapply decl_tel_sound; [apply K; simpl; auto|auto]|apply IHForall2; intros; apply K; simpl; auto].
Qed.

Lemma decl_type_Ok : forall x t, conforms x -> decl_type x = Ok t -> type_of x t.
Proof.
  intros x t Hcf H. assert (Hc := conforms_chars _ Hcf). unfold decl_type in H. destruct (str_eqb (x_type x) (lit "ComponentType")) eqn:T; [|destruct (not_here_not_Ok _ _ _ H)].
  apply str_eqb_eq in T. apply obind_Ok in H. destruct H as (len & Hl & H). apply obind_Ok in H. destruct H as (cs & Hcs & H). inversion H; subst.
  unfold type_of; cbn [ct_name ct_mapping ct_extends ct_children]. split; [auto|]. split; [auto|]. split; [auto|]. split; [auto|].
  split; [exists len; apply decl_length_Ok; auto|]. eapply each_declares; eauto. intros; eapply conforms_child; eauto.
Qed.

Definition is_set (x : xnode) : bool := str_eqb (x_type x) (lit "ComponentLibrary") || str_eqb (x_type x) (lit "ComponentTypeSet").
Definition decl_entry (c : xnode) : outcome (list ctype) := if is_set c then decl_library c else omap (fun t => [t]) (decl_type c).

Lemma decl_library_unfold : forall ty a c, decl_library (XElem ty a c) = omap (@List.concat ctype) (each decl_entry (x_elems (XElem ty a c))).
Proof.
  intros ty a c. unfold x_elems. cbn [decl_library x_content]. unfold omap.
  induction c as [|[s|ty' a' c'] r IH]; [reflexivity|exact IH|]. cbn [filter is_elem each]. rewrite IH. clear IH.
  change (if str_eqb (x_type (XElem ty' a' c')) (lit "ComponentLibrary") || str_eqb (x_type (XElem ty' a' c')) (lit "ComponentTypeSet")
          then decl_library (XElem ty' a' c') else do a0 <- decl_type (XElem ty' a' c'); Ok [a0]) with (decl_entry (XElem ty' a' c')).
  destruct (decl_entry (XElem ty' a' c')) as [l| | |]; cbn [obind]; try reflexivity.
  destruct (each decl_entry (filter is_elem r)); reflexivity.
Qed.

Lemma decl_library_Ok : forall x ts, conforms x -> decl_library x = Ok ts -> x <> XText [] ->
  exists us, library_of (x_elems x) us /\ Forall2 type_of us ts.
Proof.
  induction x as [s|ty a c IH] using xnode_ind_nested; intros ts Hcf H N.
  - inversion H. exists []. split; constructor.
  - rewrite decl_library_unfold in H. unfold omap in H. apply obind_Ok in H. destruct H as (tss & H & E). inversion E; subst ts. clear E.
    apply each_Ok in H. rewrite Forall_forall in IH.
    assert (K : forall y, In y (x_elems (XElem ty a c)) -> In y c /\ conforms y /\ exists ty a l, y = XElem ty a l)
      by (intros y Hy; split; [apply (x_elems_In ty a); auto|split; [eapply conforms_child; eauto|eapply x_elems_XElem; eauto]]).
    clear N. revert H K. generalize (x_elems (XElem ty a c)) as l. intros l H K. clear Hcf. induction H as [|y ts l tss Hy F IHF]; [exists []; split; constructor|].
    destruct (K y) as (Yin & Yc & (ty' & a' & l' & Ey)); [simpl; auto|].
    destruct IHF as (us & L & T); [intros; apply K; simpl; auto|]. unfold decl_entry in Hy. destruct (is_set y) eqn:S0.
    + destruct (IH y Yin ts Yc Hy) as (vs & L' & T'); [rewrite Ey; discriminate|]. exists (vs ++ us). split.
      * apply lb_set; auto. unfold is_set in S0. apply orb_true_iff in S0. rewrite !str_eqb_eq in S0. auto.
      * simpl. apply Forall2_app; auto.
    + unfold omap in Hy. apply obind_Ok in Hy. destruct Hy as (t & Hy & E). inversion E; subst ts. apply decl_type_Ok in Hy; auto.
      exists (y :: us). split; [constructor; auto; apply Hy|]. simpl. constructor; auto.
Qed.

Lemma decl_library_settled : forall x, conforms x -> nested x -> (x_type x = lit "ComponentLibrary" \/ x_type x = lit "ComponentTypeSet") -> settled (decl_library x).
Proof.
  induction x as [s|ty a c IH] using xnode_ind_nested; intros Hcf Hn T; [apply settled_Ok|]. rewrite decl_library_unfold. unfold omap.
  apply settled_bind; [|intros; apply settled_Ok]. apply settled_each. intros y Hy. rewrite Forall_forall in IH.
  assert (K := nested_allowed _ _ Hn Hy). unfold decl_entry.
  assert (K' : In (x_type y) [lit "ComponentLibrary"; lit "ComponentTypeSet"; lit "ComponentType"]) by (destruct T as [T|T]; rewrite T in K; exact K).
  destruct (is_set y) eqn:S0.
  - apply IH; [apply (x_elems_In ty a); auto|eapply conforms_child; eauto|eapply nested_child; eauto|].
    unfold is_set in S0. apply orb_true_iff in S0. rewrite !str_eqb_eq in S0. auto.
  - apply settled_bind; [|intros; apply settled_Ok]. apply decl_type_settled; [eapply conforms_child; eauto|eapply nested_child; eauto|].
    unfold is_set in S0. apply orb_false_iff in S0. rewrite !str_eqb_neq in S0. destruct K' as [K'|[K'|[K'|[]]]]; [destruct S0; congruence|destruct S0; congruence|auto].
Qed.

(** ** Subsystems *)

Lemma subsystem_children : forall x, nested x -> x_type x = lit "Subsystem" ->
  exists xl xd, x_elems x = [xl; xd] /\ x_type xl = lit "ComponentLibrary" /\ x_type xd = lit "InstanceDefinition".
Proof.
  intros x Hn T. destruct (Hn x (ins_self x)) as [_ K]. specialize (K T). destruct (x_elems x) as [|a [|b [|c l]]]; try discriminate K.
  exists a, b. injection K as Ka Kb. auto.
Qed.

Lemma child_library : forall x xl xd, x_elems x = [xl; xd] -> x_type xl = lit "ComponentLibrary" -> child_or_last (lit "ComponentLibrary") x = Ok xl.
Proof. intros x xl xd E T. unfold child_or_last. rewrite E. cbn [find]. rewrite T, str_eqb_refl. auto. Qed.

Lemma child_instances : forall x xl xd, x_elems x = [xl; xd] -> x_type xl = lit "ComponentLibrary" -> x_type xd = lit "InstanceDefinition" ->
  child_or_last (lit "InstanceDefintion") x = Ok xd.
Proof.
  intros x xl xd E T T'. unfold child_or_last. rewrite E. cbn [find]. rewrite T, T'. tags.
  change (str_eqb (lit "ComponentLibrary") (lit "InstanceDefintion")) with false. change (str_eqb (lit "InstanceDefinition") (lit "InstanceDefintion")) with false.
  reflexivity.
Qed.

Lemma load_subsystem_Ok : forall lib fuel x nm sb xs, conforms x -> nested x -> load_subsystem lib fuel x = Ok (nm, (sb, xs)) ->
  nm = x_name x /\ (exists pl, lib (x_attr0 (lit "Type") x) = Some pl /\ sb_keys sb = pl_keys pl /\ sb_creators sb = pl_creators pl /\ sb_virtual sb = pl_virtual pl)
  /\ load_mapping (x_attr0 (lit "Mapping") x) = Some (sb_maps sb)
  /\ exists ts defs ll ds, subsystem_declared x ts defs xs /\ load_structure ts defs = Some (ll, ds) /\ create_instances fuel ll ds = Some xs.
Proof.
  intros lib fuel x nm sb xs Hcf Hn H. unfold load_subsystem in H. destruct (str_eqb (x_type x) (lit "Subsystem")) eqn:T; [|destruct (not_here_not_Ok _ _ _ H)].
  apply str_eqb_eq in T. destruct (lib (x_attr0 (lit "Type") x)) as [pl|] eqn:L; [|discriminate].
  change (decl_mapping x) with (x_attr0 (lit "Mapping") x) in H.
  destruct (load_mapping (x_attr0 (lit "Mapping") x)) as [m|] eqn:M; [|discriminate].
  destruct (subsystem_children x Hn T) as (xl & xd & E & Tl & Td). rewrite (child_library x xl xd E Tl) in H. cbn [obind] in H.
  rewrite (child_instances x xl xd E Tl Td) in H. apply obind_Ok in H. destruct H as (ts & Hts & H). cbn [obind] in H.
  apply obind_Ok in H. destruct H as (defs & Hdefs & H). destruct (load_structure ts defs) as [[ll ds]|] eqn:LS; [|discriminate].
  destruct (create_instances fuel ll ds) as [xs'|] eqn:CI; [|discriminate]. inversion H; subst. cbn [sb_keys sb_creators sb_virtual sb_maps].
  split; [auto|]. split; [exists pl; auto|]. split; [auto|]. exists ts, defs, ll, ds.
  assert (Cl : conforms xl /\ conforms xd) by (split; eapply conforms_child; eauto; rewrite E; simpl; auto). destruct Cl as [Cl Cd].
  split; [|auto]. destruct (decl_library_Ok xl ts Cl Hts) as (us & LU & TU); [intros K; rewrite K in Tl; discriminate|].
  exists xl, xd, us. split; [auto|]. split; [auto|]. split; [auto|]. split; [auto|]. split.
  - eapply each_declares; eauto. intros; eapply conforms_child; eauto.
  - eapply C47_created; eauto.
Qed.

(** ** Soundness of what is created *)

Definition bits_sound (b : nat) (bits : list (str * bittype)) : Prop :=
  forall nb, In nb bits -> bit_wf (snd nb) = true /\ bt_block (snd nb) = b.
Definition bits_disjoint (bits : list (str * bittype)) : Prop :=
  forall i j a b, i <> j -> nth_error bits i = Some a -> nth_error bits j = Some b ->
    bt_pos (snd a) + bt_size (snd a) <= bt_pos (snd b) \/ bt_pos (snd b) + bt_size (snd b) <= bt_pos (snd a).

Inductive tel_sound (D : list (str * bittype) -> Prop) : tel -> Prop :=
| ts_leaf : forall n k m, elem_wf (Elem n k []) = true -> (forall b, k <> KdBitBlock b) -> tel_sound D (TLeaf n k m)
| ts_bits : forall n b m bits, bits_sound b bits -> D bits -> tel_sound D (TBits n b m bits)
| ts_block : forall n m l cs, (forall c, In c cs -> tel_sound D c) -> tel_sound D (TBlock n m l cs)
| ts_comp : forall n m l ty, tel_sound D (TComp n m l ty).

Definition blocks_are (D : list (str * bittype) -> Prop) (e : elem) : Prop :=
  forall r n b cs, elem_at e r = Some (Elem n (KdBitBlock b) cs) ->
    exists bits, cs = map (fun nb => Elem (fst nb) (KdBit (snd nb)) []) bits /\ D bits.

Lemma forallb_map_forget : forall f xs, (forall x, In x xs -> f (forget x) = true) -> forallb f (map forget xs) = true.
Proof. intros f xs H. rewrite forallb_forall. intros e I. apply in_map_iff in I. destruct I as (x & <- & I). auto. Qed.

Lemma blocks_node : forall D n k cs, (forall b, k <> KdBitBlock b) -> (forall c, In c cs -> blocks_are D c) -> blocks_are D (Elem n k cs).
Proof.
  intros D n k cs K H [|i r] n' b cs' E; simpl in E; [inversion E; subst; destruct (K b); auto|].
  destruct (nth_error cs i) as [c|] eqn:N; [|discriminate]. apply nth_error_In in N. eapply H; eauto.
Qed.

Definition inst_sound (D : list (str * bittype) -> Prop) (x : inst) : Prop := elem_wf (forget x) = true /\ blocks_are D (forget x).

Lemma group_sound : forall D n k m xs, k = KdBlock \/ k = KdComponent -> (forall x, In x xs -> inst_sound D x) -> inst_sound D (Inst n k m xs).
Proof.
  intros D n k m xs K H. split.
  - simpl. destruct K as [->| ->]; apply forallb_map_forget; intros; apply H; auto.
  - simpl. apply blocks_node; [intros b; destruct K as [->| ->]; discriminate|]. intros c I. apply in_map_iff in I. destruct I as (x & <- & I). apply H; auto.
Qed.

Lemma creates_sound : forall D ts, (forall t c, In t ts -> In c (ct_children t) -> tel_sound D c) ->
  forall t x, creates ts t x -> tel_sound D t -> inst_sound D x.
Proof.
  intros D ts HT. apply (creates_P ts (fun t x => tel_sound D t -> inst_sound D x) (fun _ xs => forall x, In x xs -> inst_sound D x)).
  - intros n k raw m M Hs. inversion Hs as [n' k' m' W NB| | |]; subst. split; [simpl in *; auto|]. simpl. apply blocks_node; [auto|intros c []].
  - intros n b raw m bits M Hs. inversion Hs as [|n' b' m' bits' S0 HD| |]; subst. split.
    + simpl. rewrite map_map. rewrite forallb_forall. intros e I. apply in_map_iff in I. destruct I as (nb & <- & I). simpl.
      destruct (S0 nb I) as [-> ->]. rewrite Nat.eqb_refl. auto.
    + simpl. rewrite map_map. intros [|i r] n' b' cs' E; simpl in E.
      * inversion E; subst. exists bits. split; auto.
      * destruct (nth_error _ i) as [c|] eqn:N; [|discriminate]. rewrite nth_error_map in N. destruct (nth_error bits i); [|discriminate]. inversion N; subst.
        destruct r as [|j r]; simpl in E; [discriminate|destruct j; discriminate].
  - intros n raw m cs xs M _ F Hs. inversion Hs; subst. apply group_sound; auto. intros x I. destruct (Forall2_In_r _ _ _ _ _ _ F I) as (y & Iy & Hy). auto.
  - intros n raw m len cs xs es _ M _ F E Hs. inversion Hs; subst. apply group_sound; auto. intros e I.
    destruct (entries_In _ _ _ _ _ _ E I) as (s & i & _ & ->). apply group_sound; auto. intros x I'. destruct (Forall2_In_r _ _ _ _ _ _ F I') as (y & Iy & Hy). auto.
  - intros n raw m ty i ms xs M _ T _ F Hs. apply group_sound; auto.
  - intros n raw m len ty i ms xs es _ M _ T _ F E Hs. apply group_sound; auto. intros e I.
    destruct (entries_In _ _ _ _ _ _ E I) as (s & j & _ & ->). apply group_sound; auto.
  - intros i t xs Ht _ _ F x I. destruct (Forall2_In_r _ _ _ _ _ _ F I) as (y & Iy & Hy). apply Hy. eapply HT; eauto. eapply nth_error_In; eauto.
  - intros i t n j xs ys Ht _ _ _ F _ G x I. apply in_app_or in I. destruct I as [I|I]; auto. destruct (Forall2_In_r _ _ _ _ _ _ F I) as (y & Iy & Hy). apply Hy. eapply HT; eauto. eapply nth_error_In; eauto.
Qed.

(** ** Soundness of what is declared *)

Lemma size_ok_cases : forall b, (b = 1 \/ b = 2 \/ b = 4)%nat -> ((b =? 1) || (b =? 2) || (b =? 4))%nat = true.
Proof. intros b [->|[->| ->]]; reflexivity. Qed.

Lemma int_attr_range : forall sg b nm d x v, width_lo sg b <= d <= width_hi sg b -> int_attr sg b nm d x v ->
  in_ctype (TextModel.CType sg b) v = true.
Proof.
  intros sg b nm d x v D H. assert (R : width_lo sg b <= v <= width_hi sg b).
  { destruct H as [[_ ->]|(s & _ & _ & R & _)]; auto. }
  unfold in_ctype. apply andb_true_iff. split; apply Z.leb_le; destruct R; auto.
Qed.

Lemma zero_in_int32 : width_lo true 4 <= 0 <= width_hi true 4.
Proof. split; vm_compute; discriminate. Qed.

Lemma width_order : forall sg b, (b = 1 \/ b = 2 \/ b = 4)%nat -> width_lo sg b <= width_hi sg b.
Proof. intros sg b [->|[->| ->]]; destruct sg; vm_compute; discriminate. Qed.

Lemma float_attr_range : forall nm d x v, (- max32 <= d <= max32)%Q -> float_attr nm d x v -> (- max32 <= v <= max32)%Q.
Proof.
  intros nm d x v D [[_ ->]|(s & neg & q & _ & T & M & E)]; [auto|]. apply real_text_nonneg in T.
  assert (P : (0 <= round32 q)%Q) by (apply round_fp_pos; auto).
  assert (N : (- round32 q <= 0)%Q) by (apply Qopp_le_compat in P; exact P).
  assert (M0 : (0 <= max32)%Q) by (vm_compute; discriminate). assert (M1 : (- max32 <= 0)%Q) by (apply Qopp_le_compat in M0; exact M0).
  rewrite E. destruct neg; split.
  - apply Qopp_le_compat; auto.
  - eapply Qle_trans; eauto.
  - eapply Qle_trans; eauto.
  - auto.
Qed.

Lemma max32_order : (- max32 <= max32)%Q.
Proof. vm_compute. discriminate. Qed.

Lemma size_bytes_124 : forall x bytes, attr_in (lit "Size") x (fun v => v = 8 \/ v = 16 \/ v = 32) -> x_attr (lit "Size") x <> None ->
  size_attr (lit "Size") 0 x (8 * Z.of_nat bytes) -> (bytes = 1 \/ bytes = 2 \/ bytes = 4)%nat.
Proof. intros x bytes K N H. pose proof (size_attr_text _ _ _ _ K N H) as B. cbv beta in B. lia. Qed.

Lemma type_declared_wf : forall x t, conforms x -> type_declared x t -> pt_wf t = true.
Proof.
  intros x t Hcf H. destruct (Hcf x (ins_self x)) as [_ Ke Kf Kb _ _ _].
  destruct H as [E NE|sg bytes lo hi E Ha Hb Hsz Hs Hl Hh R|bytes ps E N Hsz Hp|bytes n m E Hu Hsz Hn Hm L|lo hi E Hu Hsz Hl Hh R]; cbn [pt_wf].
  - auto.
  - assert (W := width_order sg bytes Hb). rewrite size_ok_cases by auto. rewrite !(int_attr_range sg bytes) with (1 := conj (Z.le_refl _) W) (2 := Hl).
    rewrite (int_attr_range sg bytes _ _ _ _ (conj W (Z.le_refl _)) Hh). simpl. apply Z.leb_le. auto.
  - rewrite size_ok_cases by (eapply size_bytes_124; eauto). simpl. rewrite forallb_forall. intros p I.
    destruct (Forall2_In_r _ _ _ _ _ _ Hp I) as (y & _ & (_ & _ & _ & Hv)). apply (int_attr_range true 4 (lit "Numerical") 0 y (snd p) zero_in_int32 Hv).
  - assert (N : x_attr (lit "Size") x <> None).
    { intros N. destruct Hsz as [[_ B]|(s & B & _)]; [|congruence]. lia. }
    rewrite size_ok_cases by (eapply size_bytes_124; eauto). cbn [andb]. apply Z.leb_le. unfold fix_util_bits. lia.
  - assert (Rl := float_attr_range _ _ _ _ (conj (Qle_refl _) max32_order) Hl). assert (Rh := float_attr_range _ _ _ _ (conj max32_order (Qle_refl _)) Hh).
    rewrite !andb_true_iff, !Qle_bool_iff. tauto.
Qed.

Lemma bit_declared_wf : forall b x nb, (b = 0 \/ b = 1 \/ b = 2 \/ b = 4 \/ b = 8)%nat -> bit_declared b x nb -> bit_wf (snd nb) = true /\ bt_block (snd nb) = b.
Proof.
  intros b x [nm [bp sz mx blk]] B (_ & _ & _ & E & Hp & Hs & S1 & L & Hm & M & _). cbn [snd bt_pos bt_size bt_max bt_block] in *. subst blk.
  assert (Rp := size_range _ _ _ Hp). assert (Rs := size_range _ _ _ Hs).
  assert (S64 : sz <= 64) by lia. assert (P : 0 < 2 ^ sz) by (apply Z.pow_pos_nonneg; lia).
  assert (Rm : 0 <= mx). { destruct Hm as [[_ ->]|(s & _ & _ & R & _)]; [lia|]. unfold width_lo in R; simpl in R. lia. }
  split; [|auto]. unfold bit_wf; cbn [bt_pos bt_size bt_max bt_block]. rewrite max_encodable by lia.
  repeat rewrite andb_true_iff. assert (K : ((b =? 1) || (b =? 2) || (b =? 4) || (b =? 8))%nat = true) by (destruct B as [->|[->|[->|[->| ->]]]]; auto; lia).
  rewrite K, !Z.leb_le. repeat split; auto; lia.
Qed.

Lemma declares_sound : forall (D : list (str * bittype) -> Prop) x t, (exists ty a c, x = XElem ty a c) -> conforms x ->
  (forall y bytes bits, inside x y -> x_type y = lit "BitParameterBlock" -> Forall2 (bit_declared bytes) (x_elems y) bits -> D bits) ->
  declares x t -> tel_sound D t.
Proof.
  induction x as [s|ty a c IH] using xnode_ind_nested; intros t (ty' & a' & c' & E) Hcf HD H; [discriminate|]. clear ty' a' c' E. set (x := XElem ty a c) in *.
  inversion H as [x' t' len' k TD AL SH Ex Et|x' n len' T NE AL MX Ex Et|x' bytes len' bits T AL SZ FB Ex Et|x' len' cs T AL FC Ex Et|x' len' T AL NE Ex Et]; subst x' t.
  - apply type_declared_wf in TD; auto. destruct SH as [[-> ->]|[N ->]].
    + apply ts_leaf; [|intros; discriminate]. simpl. rewrite TD. auto.
    + apply ts_leaf; [|intros; discriminate]. simpl. rewrite TD. destruct len' as [|l]; [congruence|]. auto.
  - apply ts_leaf; [auto|intros; discriminate].
  - apply ts_bits.
    + destruct (block_bytes x _ Hcf T SZ) as [_ B8]. rewrite bytes_div in B8. intros nb I.
      destruct (Forall2_In_r _ _ _ _ _ _ FB I) as (y & _ & Hy). eapply bit_declared_wf; eauto.
    + eapply HD; [constructor|auto|exact FB].
  - apply ts_block. intros t I. destruct (Forall2_In_r _ _ _ _ _ _ FC I) as (y & Iy & Hy). rewrite Forall_forall in IH.
    apply (IH y (x_elems_In ty a c y Iy) t); auto; [eapply x_elems_XElem; eauto|eapply conforms_child; eauto|].
    intros z bytes bits Iz Tz Fz. eapply HD; [|exact Tz|exact Fz]. econstructor; eauto.
  - apply ts_comp.
Qed.

Lemma bits_apart_disjoint : forall x y bytes bits, bits_apart x -> inside x y -> x_type y = lit "BitParameterBlock" ->
  Forall2 (bit_declared bytes) (x_elems y) bits -> bits_disjoint bits.
Proof.
  intros x y bytes bits HA I T F i j a b N Ea Eb.
  assert (G : forall k nb, nth_error bits k = Some nb -> exists c, nth_error (x_elems y) k = Some c /\ bit_declared bytes c nb).
  { clear - F. induction F as [|c nb l l' H F IH]; intros [|k] nb' E; simpl in E; try discriminate; [inversion E; subst; exists c; auto|]. apply IH in E. auto. }
  destruct (G _ _ Ea) as (c & Ec & (_ & _ & _ & _ & Pc & Sc & _)). destruct (G _ _ Eb) as (d & Ed & (_ & _ & _ & _ & Pd & Sd & _)).
  eapply HA; eauto.
Qed.

(** The whole subsystem. *)

Lemma inside_trans : forall x y z, inside x y -> inside y z -> inside x z.
Proof. intros x y z H. induction H; auto. intros. econstructor; eauto. Qed.

Lemma library_inside : forall l us, library_of l us -> forall u, In u us -> exists c, In c l /\ inside c u /\ x_type u = lit "ComponentType".
Proof.
  intros l us H. induction H; intros u I.
  - destruct I.
  - destruct I as [<-|I]; [exists x; split; [simpl; auto|split; [constructor|auto]]|]. destruct (IHlibrary_of u I) as (c & A & B). exists c. simpl; tauto.
  - apply in_app_or in I. destruct I as [I|I].
    + destruct (IHlibrary_of1 u I) as (c & A & B & C). exists x. split; [simpl; auto|]. split; auto. econstructor; eauto.
    + destruct (IHlibrary_of2 u I) as (c & A & B). exists c. simpl; tauto.
Qed.

Lemma inside_XElem : forall x y, inside x y -> (exists ty a c, x = XElem ty a c) -> exists ty a c, y = XElem ty a c.
Proof. intros x y H. induction H; auto. intros _. apply IHinside. eapply x_elems_XElem; eauto. Qed.

Lemma subsystem_sound : forall (D : list (str * bittype) -> Prop) x ts defs xs, conforms x -> subsystem_declared x ts defs xs ->
  (forall y bytes bits, inside x y -> x_type y = lit "BitParameterBlock" -> Forall2 (bit_declared bytes) (x_elems y) bits -> D bits) ->
  forall e, In e xs -> inst_sound D e.
Proof.
  intros D x ts defs xs Hcf (xl & xd & us & T & E & LU & TU & DD & CC) HD e I.
  assert (Il : inside x xl /\ inside x xd) by (split; apply inside_child; rewrite E; simpl; auto). destruct Il as [Il Id].
  assert (HT : forall t c, In t ts -> In c (ct_children t) -> tel_sound D c).
  { intros t c It Ic. destruct (Forall2_In_r _ _ _ _ _ _ TU It) as (u & Iu & (_ & _ & _ & _ & _ & Fu)).
    destruct (library_inside _ _ LU u Iu) as (z & Iz & Izu & _). destruct (Forall2_In_r _ _ _ _ _ _ Fu Ic) as (y & Iy & Hy).
    assert (Ixy : inside x y). { eapply inside_trans; [exact Il|]. eapply ins_child; [exact Iz|]. eapply inside_trans; [exact Izu|]. apply inside_child; auto. }
    apply (declares_sound D y c); auto; [eapply x_elems_XElem; eauto|intros w Hw; apply Hcf; eapply inside_trans; eauto|].
    intros w bytes bits Iw. apply HD. eapply inside_trans; eauto. }
  destruct (Forall2_In_r _ _ _ _ _ _ CC I) as (t & It & Ht). eapply creates_sound; eauto.
  destruct (Forall2_In_r _ _ _ _ _ _ DD It) as (y & Iy & Hy).
  assert (Ixy : inside x y) by (eapply inside_trans; [exact Id|]; apply inside_child; auto).
  apply (declares_sound D y t); auto; [eapply x_elems_XElem; eauto|intros w Hw; apply Hcf; eapply inside_trans; eauto|].
  intros w bytes bits Iw. apply HD. eapply inside_trans; eauto.
Qed.

(** ** The system *)

Lemma load_system_Ok : forall lib hw fuel nm x y, load_system lib hw fuel nm x = Ok y ->
  x_type x = lit "SystemClass" /\ x_name x = nm
  /\ exists subs objs, Forall2 (fun s r => load_subsystem lib fuel s = Ok r) (x_elems x) subs /\ map_subsystems (map snd subs) = Ok objs
     /\ y = Sys (Elem nm KdSystem (sub_elems (map fst subs) (map snd subs))) (fun p => rank p (holders (map snd subs) objs 0) 0) hw.
Proof.
  intros lib hw fuel nm x y H. unfold load_system in H. destruct (_ && _) eqn:T; [|discriminate]. apply andb_true_iff in T. rewrite !str_eqb_eq in T. destruct T as [T1 T2].
  apply obind_Ok in H. destruct H as (subs & Hs & H). apply obind_Ok in H. destruct H as (objs & Ho & H). inversion H. apply each_Ok in Hs.
  split; [auto|]. split; [auto|]. exists subs, objs. auto.
Qed.

Lemma sub_elems_map : forall subs : list (str * (subsystem * list inst)),
  sub_elems (map fst subs) (map snd subs) = map (fun s => Elem (fst s) KdSubsystem (map forget (snd (snd s)))) subs.
Proof. induction subs as [|[n [sb xs]] r IH]; simpl; auto. rewrite IH. auto. Qed.

(** The subsystems of a loaded system, one for each element of the file. *)
Definition loaded (lib : str -> option plugin) (fuel : nat) (x : xnode) (r : str * (subsystem * list inst)) : Prop :=
  let '(nm, (sb, xs)) := r in
  nm = x_name x /\ (exists pl, lib (x_attr0 (lit "Type") x) = Some pl /\ sb_keys sb = pl_keys pl /\ sb_creators sb = pl_creators pl /\ sb_virtual sb = pl_virtual pl)
  /\ load_mapping (x_attr0 (lit "Mapping") x) = Some (sb_maps sb)
  /\ exists ts defs ll ds, subsystem_declared x ts defs xs /\ load_structure ts defs = Some (ll, ds) /\ create_instances fuel ll ds = Some xs.

Lemma load_system_loaded : forall lib fuel x subs, conforms x -> nested x ->
  Forall2 (fun s r => load_subsystem lib fuel s = Ok r) (x_elems x) subs -> Forall2 (loaded lib fuel) (x_elems x) subs.
Proof.
  intros lib fuel x subs Hcf Hn F. assert (K : forall s, In s (x_elems x) -> conforms s /\ nested s) by (intros; split; [eapply conforms_child|eapply nested_child]; eauto).
  clear Hcf Hn. induction F as [|s [nm [sb xs]] l l' H F IH]; constructor.
  - destruct (K s) as [A B]; [simpl; auto|]. exact (load_subsystem_Ok _ _ _ _ _ _ A B H).
  - apply IH. intros; apply K; simpl; auto.
Qed.

Lemma loaded_keys : forall lib fuel x r, loaded lib fuel x r -> distinct_keys (sb_maps (fst (snd r))) /\ forall c, In c (snd (snd r)) -> tree_keys c.
Proof.
  intros lib fuel x [nm [sb xs]] (_ & _ & M & ts & defs & ll & ds & (xl & xd & us & _ & _ & _ & _ & _ & CC) & _). cbn [fst snd]. split.
  - eapply load_mapping_distinct; eauto.
  - intros c I. destruct (Forall2_In_r _ _ _ _ _ _ CC I) as (t & _ & H). eapply creates_keys; eauto.
Qed.

Lemma loaded_subs_ok : forall lib fuel l subs, keys_limited lib -> Forall2 (loaded lib fuel) l subs -> subs_ok (map snd subs).
Proof.
  intros lib fuel l subs KL F sb cs I. apply in_map_iff in I. destruct I as ([nm [sb' cs']] & E & I). cbn [snd] in E. inversion E; subst sb' cs'.
  destruct (Forall2_In_r _ _ _ _ _ _ F I) as (s & _ & H). destruct (loaded_keys _ _ _ _ H) as [A B]. cbn [fst snd] in A, B.
  split; [|auto]. destruct H as (_ & (pl & L & EK & _) & _). unfold few_keys. rewrite EK. exact (KL _ _ L).
Qed.

Lemma fields_apart_blocks : forall root, elem_wf root = true -> blocks_are bits_disjoint root -> fields_apart root.
Proof.
  intros root W HB r i j e f t u N Ee Ef Ke Kf. 
  assert (G : forall i e, elem_at root (r ++ [i]) = Some e -> exists p, elem_at root r = Some p /\ nth_error (e_children p) i = Some e).
  { clear. revert root. induction r as [|k r IH]; intros root i e H; simpl in *.
    - destruct (nth_error (e_children root) i) eqn:E; [|discriminate]. exists root. rewrite E. auto.
    - destruct (nth_error (e_children root) k); [|discriminate]. eauto. }
  destruct (G _ _ Ee) as (p & Ep & Ei). destruct (G _ _ Ef) as (p' & Ep' & Ej). assert (p' = p) as -> by congruence.
  assert (Wp : elem_wf p = true \/ exists b, bit_child_wf b p = true).
  { clear - W Ep. revert root W Ep. induction r as [|k r IH]; intros root W Ep; simpl in Ep; [inversion Ep; subst; auto|].
    destruct root as [n kd cs]; simpl in *. destruct (nth_error cs k) as [c|] eqn:E; [|discriminate]. assert (I := nth_error_In _ _ E).
    destruct kd; try (apply andb_true_iff in W; destruct W as [_ W]; apply Nat.eqb_eq in W; destruct cs; [destruct k|]; discriminate);
      try (apply Nat.eqb_eq in W; destruct cs; [destruct k|]; discriminate); try (rewrite forallb_forall in W); try (apply (IH c); auto; fail).
    - specialize (W c I). destruct r as [|k' r]; simpl in Ep; [inversion Ep; subst; right; eauto|].
      destruct c as [n' [| | | | | | | |] [|]]; simpl in W; try discriminate. destruct k'; discriminate.
    - discriminate. }
  destruct p as [n kd cs]. simpl in Ei, Ej. destruct Wp as [Wp|(b & Wp)].
  - assert (Ie := nth_error_In _ _ Ei). destruct kd; simpl in Wp;
      try (apply andb_true_iff in Wp; destruct Wp as [_ Wp]; apply Nat.eqb_eq in Wp; destruct cs; [destruct i|]; discriminate);
      try (apply Nat.eqb_eq in Wp; destruct cs; [destruct i|]; discriminate); try discriminate;
      try (rewrite forallb_forall in Wp; specialize (Wp e Ie); destruct e as [n' k' cs']; simpl in Ke; subst k'; discriminate).
    destruct (HB r n bytes cs Ep) as (bits & -> & DJ). rewrite nth_error_map in Ei, Ej.
    destruct (nth_error bits i) as [a|] eqn:A; [|discriminate]. destruct (nth_error bits j) as [b|] eqn:B; [|discriminate].
    inversion Ei; subst e. inversion Ej; subst f. simpl in Ke, Kf. inversion Ke; subst t. inversion Kf; subst u. eapply DJ; eauto.
  - destruct kd, cs; simpl in Wp; try discriminate. destruct i; discriminate.
Qed.

(** ** Names *)

Lemma declares_name : forall x t, declares x t -> tel_name t = x_name x.
Proof. intros x t H. inversion H; auto. Qed.

Lemma Forall2_names : forall l ts, Forall2 declares l ts -> map tel_name ts = map x_name l.
Proof. intros l ts F. induction F; simpl; auto. rewrite IHF. erewrite declares_name; eauto. Qed.

Lemma Forall2_bit_names : forall b l bits, Forall2 (bit_declared b) l bits -> map fst bits = map x_name l.
Proof. intros b l bits F. induction F as [|x nb l l' H F IH]; simpl; auto. rewrite IH. destruct H as (_ & _ & -> & _). auto. Qed.

Definition group_type (x : xnode) : Prop := In (x_type x) block_group.

Lemma declares_group : forall x t, declares x t -> In (x_type x) block_group.
Proof.
  assert (G : forall s, existsb (str_eqb s) block_group = true -> In s block_group).
  { intros s H. apply existsb_exists in H. destruct H as (y & I & E). apply str_eqb_eq in E. subst. auto. }
  intros x t H. apply G. inversion H as [x' t' len' k TD AL SH Ex Et|x' n len' T NE AL MX Ex Et|x' bytes len' bits T AL SZ FB Ex Et|x' len' cs T AL FC Ex Et|x' len' T AL NE Ex Et]; subst;
    try (rewrite T; reflexivity). destruct TD as [E|sg bytes lo hi E|bytes ps E|bytes n m E|lo hi E]; rewrite E; reflexivity.
Qed.

Lemma names_child : forall x c, names_declared x -> In c (x_elems x) -> names_declared c.
Proof. intros x c H Hc y Hy. apply H. econstructor; eauto. Qed.
Lemma names_inside : forall x c, names_declared x -> inside x c -> names_declared c.
Proof. intros x c H Hc y Hy. apply H. eapply inside_trans; eauto. Qed.

Lemma declares_names : forall x t, (exists ty a c, x = XElem ty a c) -> names_declared x -> declares x t -> block_names_ok t.
Proof.
  induction x as [s|ty a c IH] using xnode_ind_nested; intros t (ty' & a' & c' & E) Hn H; [discriminate|]. clear ty' a' c' E. set (x := XElem ty a c) in *.
  destruct (Hn x (ins_self x)) as [N1 N2]. assert (G := declares_group _ _ H). destruct N1 as [Na Nb]; [right; right; auto|].
  inversion H as [x' t' len' k TD AL SH Ex Et|x' n len' T NE AL MX Ex Et|x' bytes len' bits T AL SZ FB Ex Et|x' len' cs T AL FC Ex Et|x' len' T AL NE Ex Et]; subst x' t.
  - apply bn_leaf; auto.
  - apply bn_leaf; auto.
  - apply bn_bits; auto.
    + rewrite (Forall2_bit_names _ _ _ FB). apply N2. rewrite T. simpl. auto.
    + intros nb I. destruct (Forall2_In_r _ _ _ _ _ _ FB I) as (y & Iy & (Ty & _ & -> & _)).
      destruct (Hn y (inside_child _ _ Iy)) as [N3 _]. apply N3. rewrite Ty. left. auto.
  - apply bn_block; auto.
    + rewrite (Forall2_names _ _ FC). apply N2. rewrite T. simpl. auto.
    + intros t I. destruct (Forall2_In_r _ _ _ _ _ _ FC I) as (y & Iy & Hy). rewrite Forall_forall in IH.
      apply (IH y (x_elems_In ty a c y Iy) t); auto; [eapply x_elems_XElem; eauto|eapply names_child; eauto].
  - apply bn_comp; auto.
Qed.

Lemma Forall2_nth : forall A B (R : A -> B -> Prop) l l', Forall2 R l l' -> forall i,
  match nth_error l i, nth_error l' i with Some a, Some b => R a b | None, None => True | _, _ => False end.
Proof. intros A B R l l' F. induction F; intros [|i]; simpl; auto. apply IHF. Qed.

Lemma created_type_names : forall us ts, Forall2 type_of us ts -> forall i ns, created_names ts i ns -> forall u, nth_error us i = Some u -> type_names us u ns.
Proof.
  intros us ts F i ns H. induction H as [i t Ht HE|i t n j ns Ht HE FN H IH]; intros u Eu; pose proof (Forall2_nth _ _ _ _ _ F i) as K; rewrite Eu, Ht in K;
    destruct K as (_ & _ & _ & EX & _ & FD).
  - rewrite (Forall2_names _ _ FD). apply tn_alone. congruence.
  - rewrite (Forall2_names _ _ FD). destruct FN as ((t' & Et' & En) & FF). pose proof (Forall2_nth _ _ _ _ _ F j) as K. rewrite Et' in K.
    destruct (nth_error us j) as [v|] eqn:Ev; [|contradiction]. destruct K as (_ & EN & _).
    apply (tn_extends us u n j v ns); [congruence|exact Ev|congruence| |apply IH; auto].
    intros k w Lk Ew. pose proof (Forall2_nth _ _ _ _ _ F k) as K. rewrite Ew in K. destruct (nth_error ts k) as [t''|] eqn:Et''; [|contradiction].
    destruct K as (_ & EN' & _). rewrite <- EN'. eapply FF; eauto.
Qed.

Lemma nested_definition : forall x xl xd, nested x -> x_type x = lit "Subsystem" -> x_elems x = [xl; xd] -> x_type xd = lit "InstanceDefinition".
Proof. intros x xl xd Hn T E. destruct (Hn x (ins_self x)) as [_ K]. specialize (K T). rewrite E in K. injection K as _ K. auto. Qed.

Lemma subsystem_names : forall x s ts defs xs, inside x s -> nested s -> names_declared x -> extensions_apart x -> subsystem_declared s ts defs xs -> names_accepted ts defs.
Proof.
  intros x s ts defs xs Is Hn Hnm Hext (xl & xd & us & T & E & LU & TU & DD & CC).
  assert (Td := nested_definition _ _ _ Hn T E).
  assert (Il : inside s xl /\ inside s xd) by (split; apply inside_child; rewrite E; simpl; auto). destruct Il as [Il Id].
  assert (Ns := names_inside _ _ Hnm Is). split; [|split; [|split]].
  - rewrite (Forall2_names _ _ DD). apply (Ns xd Id). rewrite Td. simpl. auto.
  - intros t I. destruct (Forall2_In_r _ _ _ _ _ _ DD I) as (y & Iy & Hy). apply (declares_names y t); auto; [eapply x_elems_XElem; eauto|].
    eapply names_inside; [exact Ns|]. eapply inside_trans; [exact Id|apply inside_child; auto].
  - intros t c It Ic. destruct (Forall2_In_r _ _ _ _ _ _ TU It) as (u & Iu & (_ & _ & _ & _ & _ & Fu)).
    destruct (library_inside _ _ LU u Iu) as (z & Iz & Izu & _). destruct (Forall2_In_r _ _ _ _ _ _ Fu Ic) as (y & Iy & Hy).
    apply (declares_names y c); auto; [eapply x_elems_XElem; eauto|]. eapply names_inside; [exact Ns|]. eapply inside_trans; [exact Il|].
    eapply ins_child; [exact Iz|]. eapply inside_trans; [exact Izu|]. apply inside_child; auto.
  - intros i ns H. assert (K : exists u, nth_error us i = Some u).
    { pose proof (Forall2_nth _ _ _ _ _ TU i) as K. assert (X : exists t, nth_error ts i = Some t) by (inversion H; eauto). destruct X as (t & X). rewrite X in K.
      destruct (nth_error us i); [eauto|contradiction]. }
    destruct K as (u & Eu). eapply (Hext s xl us u ns); eauto; [rewrite E; simpl; auto|eapply nth_error_In; eauto|eapply created_type_names; eauto].
Qed.

(** ** Definedness of the loading *)

Lemma declares_mentions : forall x t, (exists ty a c, x = XElem ty a c) -> declares x t -> forall ty, mentions t ty -> exists z, inside x z /\ x_type z = lit "Component".
Proof.
  induction x as [s|ty a c IH] using xnode_ind_nested; intros t (ty' & a' & c' & E) H ty0 M; [discriminate|]. clear ty' a' c' E. set (x := XElem ty a c) in *.
  inversion H as [x' t' len' k TD AL SH Ex Et|x' n len' T NE AL MX Ex Et|x' bytes len' bits T AL SZ FB Ex Et|x' len' cs T AL FC Ex Et|x' len' T AL NE Ex Et]; subst x' t; inversion M; subst.
  - match goal with I : In _ cs |- _ => destruct (Forall2_In_r _ _ _ _ _ _ FC I) as (y & Iy & Hy) end. rewrite Forall_forall in IH.
    match goal with M' : mentions _ ty0 |- _ => destruct (IH y (x_elems_In ty a c y Iy) _ (x_elems_XElem _ _ Iy) Hy _ M') as (z & Iz & Tz) end. exists z. split; auto. econstructor; eauto.
  - exists x. split; [constructor|auto].
Qed.

Lemma declares_block_type : forall x n m l cs, declares x (TBlock n m l cs) -> x_type x = lit "ParameterBlock".
Proof. intros x n m l cs H. inversion H; auto. Qed.

Lemma load_subsystem_settled : forall lib x, conforms x -> nested x -> flat_types x -> x_type x = lit "Subsystem" ->
  exists fuel, forall f, (fuel <= f)%nat -> settled (load_subsystem lib f x).
Proof.
  intros lib x Hcf Hn Hfl T. destruct (subsystem_children x Hn T) as (xl & xd & E & Tl & Td).
  assert (Cl : In xl (x_elems x) /\ In xd (x_elems x)) by (rewrite E; simpl; auto). destruct Cl as [Il Id].
  assert (Sl := decl_library_settled xl (conforms_child _ _ Hcf Il) (nested_child _ _ Hn Il) (or_introl Tl)).
  assert (Sd : settled (each decl_tel (x_elems xd))).
  { apply settled_each. intros y Hy. apply decl_tel_settled; [eapply conforms_child; [eapply conforms_child; eauto|auto]|eapply nested_child; [eapply nested_child; eauto|auto]|].
    assert (K := nested_allowed _ _ (nested_child _ _ Hn Id) Hy). rewrite Td in K. exact K. }
  assert (R : forall f, load_subsystem lib f x =
    match lib (x_attr0 (lit "Type") x) with
    | None => Err
    | Some pl => match load_mapping (decl_mapping x) with
      | None => Err
      | Some m => do ts <- decl_library xl; do defs <- each decl_tel (x_elems xd);
         match load_structure ts defs with
            | None => Err
            | Some (ll, ds) =>
                match create_instances f ll ds with
                | None => UB
                | Some xs => Ok (x_name x, (Subsys m (pl_keys pl) (pl_creators pl) (pl_virtual pl), xs))
                end
            end end end).
  { intros f. unfold load_subsystem. rewrite T, str_eqb_refl. rewrite (child_library x xl xd E Tl), (child_instances x xl xd E Tl Td). reflexivity. }
  destruct (lib (x_attr0 (lit "Type") x)) as [pl|]; [|exists 0%nat; intros f _; rewrite R; apply settled_Err].
  destruct (load_mapping (decl_mapping x)) as [m|]; [|exists 0%nat; intros f _; rewrite R; apply settled_Err].
  destruct Sl as [Sl|(ts & Sl)]; [exists 0%nat; intros f _; rewrite R, Sl; apply settled_Err|].
  destruct Sd as [Sd|(defs & Sd)]; [exists 0%nat; intros f _; rewrite R, Sl, Sd; apply settled_Err|].
  destruct (load_structure ts defs) as [[ll ds]|] eqn:LS; [|exists 0%nat; intros f _; rewrite R, Sl, Sd; cbn [obind]; rewrite LS; apply settled_Err].
  destruct (C47_flat ts defs ll ds LS) as (fuel & xs & CI).
  { intros t n m' l cs ty It Ib Mn. destruct (decl_library_Ok xl ts (conforms_child _ _ Hcf Il) Sl) as (us & LU & TU); [intros K; rewrite K in Tl; discriminate|].
    destruct (Forall2_In_r _ _ _ _ _ _ TU It) as (u & Iu & (Tu & _ & _ & _ & _ & Fu)).
    destruct (library_inside _ _ LU u Iu) as (z & Iz & Izu & _). destruct (Forall2_In_r _ _ _ _ _ _ Fu Ib) as (y & Iy & Hy).
    destruct (declares_mentions y _ (x_elems_XElem _ _ Iy) Hy _ Mn) as (w & Iw & Tw).
    refine (Hfl u y w _ Tu (inside_child _ _ Iy) (declares_block_type _ _ _ _ _ Hy) Iw Tw).
    eapply ins_child; [exact Il|]. eapply ins_child; [exact Iz|]. exact Izu. }
  exists fuel. intros f Lf. rewrite R, Sl, Sd. cbn [obind]. rewrite LS. rewrite (create_mono _ _ _ _ _ Lf CI). apply settled_Ok.
Qed.

Lemma map_subsystem_settled : forall sb cs, few_keys sb -> distinct_keys (sb_maps sb) -> (forall c, In c cs -> tree_keys c) -> settled (map_subsystem sb cs).
Proof.
  intros sb cs F D T. destruct (sb_virtual sb) eqn:V; [unfold map_subsystem; rewrite V; apply settled_Ok|].
  pose proof (map_subsystem_spec sb [] cs V F D) as H. unfold spec_of in H. destruct (map_subsystem sb cs); [apply settled_Ok|apply settled_Err| |];
    destruct H; apply tree_keys_node; auto; intros d [].
Qed.

Lemma map_subsystems_settled : forall subs, subs_ok subs -> settled (map_subsystems subs).
Proof.
  induction subs as [|[sb cs] r IH]; intros H; simpl; [apply settled_Ok|].
  apply settled_bind; [|intros; apply settled_bind; [|intros; apply settled_Ok]].
  - destruct (H sb cs) as (A & B & C); [simpl; auto|]. apply map_subsystem_settled; auto.
  - apply IH. intros sb' cs' I. apply H. simpl; auto.
Qed.

Lemma settled_fuel : forall A (f : nat -> A -> outcome (str * (subsystem * list inst))) l, (forall x, In x l -> exists n, forall m, (n <= m)%nat -> settled (f m x)) ->
  exists n, forall m, (n <= m)%nat -> forall x, In x l -> settled (f m x).
Proof.
  intros A f l. induction l as [|x l IH]; intros H; [exists 0%nat; intros m _ x []|].
  destruct (H x) as (n1 & H1); [simpl; auto|]. destruct IH as (n2 & H2); [intros; apply H; simpl; auto|].
  exists (Nat.max n1 n2). intros m L y [<-|I]; [apply H1; lia|apply H2; auto; lia].
Qed.

Lemma load_system_settled : forall lib hw nm x, conforms x -> nested x -> flat_types x -> keys_limited lib ->
  exists fuel, forall f, (fuel <= f)%nat -> settled (load_system lib hw f nm x).
Proof.
  intros lib hw nm x Hcf Hn Hfl HK. destruct (str_eqb (x_type x) (lit "SystemClass")) eqn:T; [|exists 0%nat; intros f _; unfold load_system; rewrite T; apply settled_Err].
  assert (T' := T). apply str_eqb_eq in T'.
  destruct (settled_fuel _ (load_subsystem lib) (x_elems x)) as (fuel & HF).
  { intros s Is. assert (K := nested_allowed _ _ Hn Is). rewrite T' in K. destruct K as [K|[]].
    apply load_subsystem_settled; auto; [eapply conforms_child; eauto|eapply nested_child; eauto|].
    intros t y z It. apply Hfl. econstructor; eauto. }
  exists fuel. intros f Lf. unfold load_system. rewrite T. cbn [andb]. destruct (str_eqb (x_name x) nm); [|apply settled_Err].
  apply settled_bind; [apply settled_each; apply HF; auto|]. intros subs Hs. apply each_Ok in Hs. apply load_system_loaded in Hs; auto.
  apply settled_bind; [|intros; apply settled_Ok]. apply map_subsystems_settled. eapply loaded_subs_ok; eauto.
Qed.

(** ** The system made *)

Lemma load_system_made : forall lib hw fuel nm x y, conforms x -> nested x -> load_system lib hw fuel nm x = Ok y ->
  x_type x = lit "SystemClass" /\ x_name x = nm
  /\ exists subs objs, Forall2 (loaded lib fuel) (x_elems x) subs /\ map_subsystems (map snd subs) = Ok objs
     /\ sy_root y = Elem nm KdSystem (map (fun s => Elem (fst s) KdSubsystem (map forget (snd (snd s)))) subs)
     /\ y = Sys (Elem nm KdSystem (sub_elems (map fst subs) (map snd subs))) (fun p => rank p (holders (map snd subs) objs 0) 0) hw.
Proof.
  intros lib hw fuel nm x y Hc Hn H. apply load_system_Ok in H. destruct H as (T & N & subs & objs & F & M & ->). split; [auto|]. split; [auto|].
  exists subs, objs. split; [apply load_system_loaded; auto|]. split; [auto|]. split; [simpl; rewrite sub_elems_map; auto|auto].
Qed.

Lemma loaded_sound : forall (D : list (str * bittype) -> Prop) lib fuel x subs, conforms x ->
  (forall y bytes bits, inside x y -> x_type y = lit "BitParameterBlock" -> Forall2 (bit_declared bytes) (x_elems y) bits -> D bits) ->
  Forall2 (loaded lib fuel) (x_elems x) subs -> forall s e, In s subs -> In e (snd (snd s)) -> inst_sound D e.
Proof.
  intros D lib fuel x subs Hc HD F [nm [sb xs]] e Is Ie. destruct (Forall2_In_r _ _ _ _ _ _ F Is) as (s & Hs & (_ & _ & _ & ts & defs & ll & ds & SD & _)).
  cbn [fst snd] in Ie. eapply subsystem_sound; [eapply conforms_child; eauto|eauto| |auto]. intros y bytes bits I. apply HD. econstructor; eauto.
Qed.

Lemma system_wf : forall lib hw fuel nm x y, conforms x -> nested x -> load_system lib hw fuel nm x = Ok y -> elem_wf (sy_root y) = true.
Proof.
  intros lib hw fuel nm x y Hc Hn H. apply load_system_made in H; auto. destruct H as (_ & _ & subs & objs & F & _ & -> & _).
  simpl. rewrite forallb_forall. intros e I. apply in_map_iff in I. destruct I as (s & <- & Is). simpl. rewrite forallb_map_forget; auto.
  intros e Ie. apply (loaded_sound (fun _ => True) lib fuel x subs Hc (fun _ _ _ _ _ _ => I) F s e Is Ie).
Qed.

Lemma system_synced : forall lib hw fuel nm x y, conforms x -> nested x -> keys_limited lib -> load_system lib hw fuel nm x = Ok y ->
  one_syncer y /\ forall p q s, sy_own y p = Some s -> sy_own y q = Some s -> p = q.
Proof.
  intros lib hw fuel nm x y Hc Hn HK H. apply load_system_made in H; auto. destruct H as (_ & _ & subs & objs & F & M & _ & ->).
  apply C40_one_object; auto. eapply loaded_subs_ok; eauto.
Qed.

Lemma system_apart : forall lib hw fuel nm x y, conforms x -> nested x -> bits_apart x -> load_system lib hw fuel nm x = Ok y -> fields_apart (sy_root y).
Proof.
  intros lib hw fuel nm x y Hc Hn Hb H. apply fields_apart_blocks; [eapply system_wf; eauto|].
  apply load_system_made in H; auto. destruct H as (_ & _ & subs & objs & F & _ & -> & _).
  apply blocks_node; [discriminate|]. intros e I. apply in_map_iff in I. destruct I as (s & <- & Is). apply blocks_node; [discriminate|].
  intros e Ie. apply in_map_iff in Ie. destruct Ie as (z & <- & Iz).
  apply (loaded_sound bits_disjoint lib fuel x subs Hc (fun y bytes bits => bits_apart_disjoint x y bytes bits Hb) F s z Is Iz).
Qed.

Lemma system_names : forall lib hw fuel nm x y, conforms x -> nested x -> names_declared x -> extensions_apart x -> NoDup (map x_name (x_elems x)) ->
  nm <> [] -> ~ In "/"%char nm -> load_system lib hw fuel nm x = Ok y -> names_ok (sy_root y).
Proof.
  intros lib hw fuel nm x y Hc Hn Hnm Hx ND N1 N2 H. apply load_system_made in H; auto. destruct H as (T & _ & subs & objs & F & _ & -> & _).
  assert (E : Elem nm KdSystem (map (fun s => Elem (fst s) KdSubsystem (map forget (snd (snd s)))) subs)
              = system_elem nm (map (fun s : str * (subsystem * list inst) => (fst s, snd (snd s))) subs)).
  { unfold system_elem. rewrite map_map. reflexivity. }
  rewrite E. apply C62_names; auto.
  - rewrite map_map. cbn [fst]. replace (map (fun s : str * (subsystem * list inst) => fst s) subs) with (map x_name (x_elems x)); auto.
    clear - F. induction F as [|s [n [sb xs]] l l' (E & _) F IH]; simpl; auto. rewrite IH, E. auto.
  - intros s I. apply in_map_iff in I. destruct I as ([n [sb xs]] & <- & I). cbn [fst snd].
    destruct (Forall2_In_r _ _ _ _ _ _ F I) as (z & Iz & (-> & _ & _ & ts & defs & ll & ds & SD & LS & CI)).
    assert (Tz : x_type z = lit "Subsystem") by (destruct SD as (? & ? & ? & Tz & _); auto).
    destruct (Hnm z (inside_child _ _ Iz)) as [K _]. rewrite Tz in K. destruct K as [K1 K2]; [right; left; auto|]. split; [auto|]. split; [auto|].
    exists ts, defs, ll, ds, fuel. split; [|split; auto]. apply (subsystem_names x z ts defs xs); auto; [apply inside_child; auto|eapply nested_child; eauto].
Qed.

Lemma each_mono : forall A B (f g : A -> outcome B) l ys, (forall x y, f x = Ok y -> g x = Ok y) -> each f l = Ok ys -> each g l = Ok ys.
Proof. intros A B f g l ys H E. apply each_Ok in E. apply each_Ok. induction E; constructor; auto. Qed.

Lemma load_system_mono : forall lib hw nm x y f f', (f <= f')%nat -> load_system lib hw f nm x = Ok y -> load_system lib hw f' nm x = Ok y.
Proof.
  intros lib hw nm x y f f' L H. unfold load_system in *. destruct (_ && _); [|discriminate].
  apply obind_Ok in H. destruct H as (subs & E & H).
  assert (E' : each (load_subsystem lib f') (x_elems x) = Ok subs).
  { eapply each_mono; [|exact E]. intros s r Hs. unfold load_subsystem in *. destruct (str_eqb _ _); [|auto].
    destruct (lib _); [|auto]. destruct (load_mapping _); [|auto]. apply obind_Ok in Hs. destruct Hs as (cl & -> & Hs). cbn [obind].
    apply obind_Ok in Hs. destruct Hs as (ts & -> & Hs). cbn [obind]. apply obind_Ok in Hs. destruct Hs as (idf & -> & Hs). cbn [obind].
    apply obind_Ok in Hs. destruct Hs as (defs & -> & Hs). cbn [obind]. destruct (load_structure ts defs) as [[ll ds]|]; [|auto].
    destruct (create_instances f ll ds) as [xs|] eqn:CI; [|discriminate]. rewrite (create_mono _ _ _ _ _ L CI). auto. }
  rewrite E'. cbn [obind]. exact H.
Qed.
