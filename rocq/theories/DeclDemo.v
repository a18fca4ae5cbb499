(** A structure file with all the kinds of parameters, used to show that the theorems apply. *)
From Coq Require Import List Arith ZArith QArith Bool Ascii String Lia.
From Verif Require Import Base BaseProofs TextModel TextSpec TextProofs RealModel RealSpec ParamTypeModel ParamTypeSpec BitModel TreeModel TreeSpec
  MapModel MapSpec TypeModel TypeSpec XmlModel SyncModel DomXmlModel DeclModel DeclSpec DeclProofs.
Import ListNotations.
Local Open Scope Z_scope.

(** ** Checking the hypotheses by computation *)

Fixpoint below (x : xnode) : list xnode :=
  x :: match x with
       | XText _ => []
       | XElem _ _ c => (fix go (l : list xnode) : list xnode :=
                           match l with [] => [] | XText _ :: r => go r | c :: r => below c ++ go r end) c
       end.

Lemma below_child : forall x c y, In c (x_elems x) -> In y (below c) -> In y (below x).
Proof.
  intros [s|ty a l] c y Hc Hy; simpl in Hc; [contradiction|]. right. fold below. unfold x_elems in Hc. simpl in Hc.
  induction l as [|d l IH]; simpl in Hc; [contradiction|]. destruct d as [s|ty' a' l']; simpl in Hc; [auto|].
  destruct Hc as [<-|Hc]; apply in_or_app; auto.
Qed.

Lemma inside_below : forall x y, inside x y -> In y (below x).
Proof. intros x y H. induction H as [x|x c y Hc H IH]; [destruct x; simpl; auto|eapply below_child; eauto]. Qed.

Definition attrs_of (x : xnode) : list (str * str) := match x with XElem _ a _ => a | XText _ => [] end.
Definition attr_check (nm : str) (x : xnode) (P : Z -> bool) : bool :=
  match x_attr nm x with
  | None => true
  | Some s => match convertTo (TextModel.CType true 8) s with Some v => P v | None => false end
  end.
Definition num_attr (nm : str) (x : xnode) : Z := match attr_num t_uint32 nm 0 x with Ok v => v | _ => 2 ^ 32 end.
Definition check (x : xnode) : bool :=
  forallb (fun p => negb (existsb (Ascii.eqb "012"%char) (snd p))) (attrs_of x)
  && (negb (str_eqb (x_type x) (lit "EnumParameter")) || attr_check (lit "Size") x (fun v => (v =? 8) || (v =? 16) || (v =? 32)))
  && (negb (str_eqb (x_type x) (lit "FixedPointParameter"))
      || (attr_check (lit "Size") x (fun v => (v =? 8) || (v =? 16) || (v =? 32)) && (num_attr (lit "Integral") x + num_attr (lit "Fractional") x + 1 <? 2 ^ 32)))
  && (negb (str_eqb (x_type x) (lit "BitParameterBlock")) || attr_check (lit "Size") x (fun v => (v =? 8) || (v =? 16) || (v =? 32) || (v =? 64)))
  && (negb (str_eqb (x_type x) (lit "BitParameter"))
      || (attr_check (lit "Pos") x (fun v => (0 <=? v) && (v <=? 63)) && attr_check (lit "Size") x (fun v => (1 <=? v) && (v <=? 64))
          && match x_attr (lit "Size") x with Some _ => true | None => false end)).

Lemma attr_find_In : forall nm a s, attr_find nm a = Some s -> In (nm, s) a.
Proof.
  intros nm a s. induction a as [|[n v] a IH]; simpl; [discriminate|]. destruct (str_eqb n nm) eqn:E; intros H; [|auto].
  apply str_eqb_eq in E. injection H as <-. subst. auto.
Qed.

Lemma check_chars : forall x, forallb (fun p => negb (existsb (Ascii.eqb "012"%char) (snd p))) (attrs_of x) = true ->
  forall nm s, x_attr nm x = Some s -> ~ In "012"%char s.
Proof.
  intros [t|ty a c] H nm s E; [discriminate|]. apply attr_find_In in E. rewrite forallb_forall in H. apply H in E. cbn [snd] in E.
  apply negb_true_iff in E. intros I. assert (existsb (Ascii.eqb "012"%char) s = true) as K by (apply existsb_exists; exists "012"%char; auto). rewrite K in E. discriminate.
Qed.

Lemma attr_check_in : forall nm x (P : Z -> bool) (Q : Z -> Prop), (forall nm s, x_attr nm x = Some s -> ~ In "012"%char s) -> attr_check nm x P = true -> (forall v, P v = true -> Q v) ->
  attr_in nm x Q.
Proof.
  intros nm x P Q HC H HP s v E I. unfold attr_check in H. rewrite E in H. destruct (convertTo _ s) as [w|] eqn:Ew; [|discriminate].
  apply convertTo_spec in Ew; [|eapply HC; eauto]. destruct Ew as [Ew _]. rewrite (int_text_unique _ _ _ I Ew). auto.
Qed.

Lemma check_ok : forall x, check x = true -> conforms1 x.
Proof.
  intros x H. unfold check in H. repeat (apply andb_prop in H; destruct H as [H ?]). assert (HC := check_chars x H).
  assert (IM : forall a b P, negb (str_eqb a b) || P = true -> a = b -> P = true).
  { intros a b P K ->. rewrite str_eqb_refl in K. exact K. }
  constructor; auto; intros T.
  - match goal with K : _ || attr_check _ _ _ = true |- _ => apply IM in K; [|exact T]; eapply attr_check_in; eauto end. intros v. cbn beta. intros K.
    repeat (apply orb_prop in K; destruct K as [K|K]); apply Z.eqb_eq in K; auto.
  - match goal with K : _ || (attr_check _ _ _ && (_ <? _)) = true |- _ => apply IM in K; [|exact T]; apply andb_prop in K; destruct K as [K _]; eapply attr_check_in; eauto end.
    intros v. cbn beta. intros K. repeat (apply orb_prop in K; destruct K as [K|K]); apply Z.eqb_eq in K; auto.
  - intros n m Hn Hm. match goal with K : _ || (attr_check _ _ _ && (_ <? _)) = true |- _ => apply IM in K; [|exact T]; apply andb_prop in K; destruct K as [_ K]; apply Z.ltb_lt in K; rename K into LT end.
    unfold num_attr in LT. apply attr_word_Ok in Hn; [|exact HC]. apply attr_word_Ok in Hm; [|exact HC]. rewrite Hn, Hm in LT. exact LT.
  - match goal with K : negb (str_eqb _ (lit "BitParameterBlock")) || _ = true |- _ => apply IM in K; [|exact T]; eapply attr_check_in; eauto end.
    intros v. cbn beta. intros K. repeat (apply orb_prop in K; destruct K as [K|K]); apply Z.eqb_eq in K; auto.
  - match goal with K : negb (str_eqb _ (lit "BitParameter")) || _ = true |- _ => apply IM in K; [|exact T]; apply andb_prop in K; destruct K as [K _]; apply andb_prop in K; destruct K as [K _]; eapply attr_check_in; eauto end.
    intros v. cbn beta. intros K. apply andb_prop in K. destruct K as [K1 K2]. apply Z.leb_le in K1, K2. lia.
  - match goal with K : negb (str_eqb _ (lit "BitParameter")) || _ = true |- _ => apply IM in K; [|exact T]; apply andb_prop in K; destruct K as [K K0]; apply andb_prop in K; destruct K as [_ K] end.
    split; [destruct (x_attr _ x); [discriminate|discriminate]|]. eapply attr_check_in; eauto.
    intros v. cbn beta. intros K'. apply andb_prop in K'. destruct K' as [K1 K2]. apply Z.leb_le in K1, K2. lia.
Qed.

Lemma conforms_check : forall x, forallb check (below x) = true -> conforms x.
Proof. intros x H y I. apply check_ok. rewrite forallb_forall in H. apply H. apply inside_below. auto. Qed.

Fixpoint list_eqb (a b : list str) : bool :=
  match a, b with [], [] => true | x :: a, y :: b => str_eqb x y && list_eqb a b | _, _ => false end.
Lemma list_eqb_eq : forall a b, list_eqb a b = true -> a = b.
Proof. induction a as [|x a IH]; intros [|y b] H; simpl in H; try discriminate; auto. apply andb_prop in H. destruct H as [H1 H2]. apply str_eqb_eq in H1. rewrite H1, (IH b); auto. Qed.

Definition nested_check (x : xnode) : bool :=
  forallb (fun c => existsb (str_eqb (x_type c)) (allowed_in (x_type x))) (x_elems x)
  && (negb (str_eqb (x_type x) (lit "Subsystem")) || list_eqb (map x_type (x_elems x)) (map lit ["ComponentLibrary"; "InstanceDefinition"]%string)).
Lemma nested_checked : forall x, forallb nested_check (below x) = true -> nested x.
Proof.
  intros x H y I. rewrite forallb_forall in H. apply inside_below in I. apply H in I. apply andb_prop in I. destruct I as [A B]. split.
  - intros c Hc. rewrite forallb_forall in A. apply A in Hc. apply existsb_exists in Hc. destruct Hc as (t & It & E). apply str_eqb_eq in E. rewrite E. auto.
  - intros T. rewrite T, str_eqb_refl in B. apply list_eqb_eq. exact B.
Qed.

Fixpoint nodup_check (l : list str) : bool := match l with [] => true | x :: r => negb (existsb (str_eqb x) r) && nodup_check r end.
Lemma nodup_checked : forall l, nodup_check l = true -> NoDup l.
Proof.
  induction l as [|x l IH]; simpl; intros H; constructor; apply andb_prop in H; destruct H as [H1 H2]; auto.
  apply negb_true_iff in H1. intros I. assert (existsb (str_eqb x) l = true) as K by (apply existsb_exists; exists x; split; [auto|apply str_eqb_refl]). congruence.
Qed.

Definition names_check (x : xnode) : bool :=
  (negb (existsb (str_eqb (x_type x)) (lit "BitParameter" :: lit "Subsystem" :: block_group))
   || (match x_name x with [] => false | _ => true end && negb (existsb (Ascii.eqb "/"%char) (x_name x))))
  && (negb (existsb (str_eqb (x_type x)) (map lit ["ParameterBlock"; "BitParameterBlock"; "ComponentType"; "InstanceDefinition"]%string))
      || nodup_check (map x_name (x_elems x))).
Lemma names_checked : forall x, forallb names_check (below x) = true -> names_declared x.
Proof.
  intros x H y I. rewrite forallb_forall in H. apply inside_below in I. apply H in I. apply andb_prop in I. destruct I as [A B]. split.
  - intros T. assert (K : existsb (str_eqb (x_type y)) (lit "BitParameter" :: lit "Subsystem" :: block_group) = true) by (apply existsb_exists; eexists; split; [exact T|apply str_eqb_refl]).
    rewrite K in A. cbn [negb orb] in A. apply andb_prop in A. destruct A as [A1 A2]. split; [intros E; rewrite E in A1; discriminate|].
    apply negb_true_iff in A2. intros J. assert (existsb (Ascii.eqb "/"%char) (x_name y) = true) as L by (apply existsb_exists; exists "/"%char; auto). congruence.
  - intros T. assert (K : existsb (str_eqb (x_type y)) (map lit ["ParameterBlock"; "BitParameterBlock"; "ComponentType"; "InstanceDefinition"]%string) = true)
      by (apply existsb_exists; eexists; split; [exact T|apply str_eqb_refl]).
    rewrite K in B. cbn [negb orb] in B. apply nodup_checked. exact B.
Qed.

Definition flat_check (x : xnode) : bool :=
  negb (str_eqb (x_type x) (lit "ComponentType"))
  || forallb (fun y => negb (str_eqb (x_type y) (lit "ParameterBlock")) || forallb (fun z => negb (str_eqb (x_type z) (lit "Component"))) (below y)) (below x).
Lemma flat_checked : forall x, forallb flat_check (below x) = true -> flat_types x.
Proof.
  intros x H t y z It Tt Iy Ty Iz Tz. rewrite forallb_forall in H. apply inside_below in It. apply H in It. unfold flat_check in It. rewrite Tt, str_eqb_refl in It.
  cbn [negb orb] in It. rewrite forallb_forall in It. apply inside_below in Iy. apply It in Iy. rewrite Ty, str_eqb_refl in Iy. cbn [negb orb] in Iy.
  rewrite forallb_forall in Iy. apply inside_below in Iz. apply Iy in Iz. rewrite Tz in Iz. discriminate.
Qed.

Definition pair_check (a b : xnode) : bool :=
  match attr_num t_uint64 (lit "Pos") 0 a, attr_num t_uint64 (lit "Size") 0 a, attr_num t_uint64 (lit "Pos") 0 b, attr_num t_uint64 (lit "Size") 0 b with
  | Ok pa, Ok sa, Ok pb, Ok sb => (pa + sa <=? pb) || (pb + sb <=? pa)
  | _, _, _, _ => false
  end.
Fixpoint pairs_check (l : list xnode) : bool := match l with [] => true | x :: r => forallb (pair_check x) r && pairs_check r end.
Lemma pairs_checked : forall l, pairs_check l = true -> forall i j c d, (i < j)%nat -> nth_error l i = Some c -> nth_error l j = Some d -> pair_check c d = true.
Proof.
  induction l as [|x l IH]; intros H [|i] [|j] c d L A B; simpl in H, A, B; try discriminate; try lia; apply andb_prop in H; destruct H as [H1 H2].
  - injection A as <-. rewrite forallb_forall in H1. apply H1. eapply nth_error_In; eauto.
  - eapply (IH H2 i j); eauto. lia.
Qed.
Definition apart_check (x : xnode) : bool := negb (str_eqb (x_type x) (lit "BitParameterBlock")) || pairs_check (x_elems x).
Lemma apart_checked : forall x, conforms x -> forallb apart_check (below x) = true -> bits_apart x.
Proof.
  intros x HC H y i j c d pc sc pd sd Iy Ty NE Ec Ed A1 A2 B1 B2. rewrite forallb_forall in H. assert (Iy' := Iy). apply inside_below in Iy. apply H in Iy.
  unfold apart_check in Iy. rewrite Ty, str_eqb_refl in Iy. cbn [negb orb] in Iy.
  assert (CH : forall c, In c (x_elems y) -> chars_ok c).
  { intros e Ie. apply conforms_chars. intros z Iz. apply HC. clear - Iy' Ie Iz. induction Iy'; [econstructor; eauto|econstructor; eauto]. }
  assert (Ic := CH _ (nth_error_In _ _ Ec)). assert (Id := CH _ (nth_error_In _ _ Ed)).
  apply attr_size_Ok in A1, A2, B1, B2; auto.
  assert (K : pair_check c d = true \/ pair_check d c = true).
  { destruct (Nat.lt_trichotomy i j) as [L|[L|L]]; [left|congruence|right]; eapply pairs_checked; eauto. }
  unfold pair_check in K. rewrite A1, A2, B1, B2 in K. destruct K as [K|K]; apply orb_prop in K; destruct K as [K|K]; apply Z.leb_le in K; auto.
Qed.

(** ** The structure file *)

Local Open Scope string_scope.
Definition el (ty : string) (a : list (string * string)) (c : list xnode) : xnode := XElem (lit ty) (map (fun p => (lit (fst p), lit (snd p))) a) c.

Definition sd_base : xnode := el "ComponentType" [("Name", "base")]
  [el "IntegerParameter" [("Name", "volume"); ("Size", "8"); ("Signed", "true"); ("Min", "-10"); ("Max", "0x14"); ("Mapping", "Control:Volume")]
     [el "LinearAdaptation" [("SlopeNumerator", "2.5"); ("Offset", "-3")] []];
   el "EnumParameter" [("Name", "mode"); ("Size", "8"); ("Mapping", "Control:Mode")]
     [el "ValuePair" [("Literal", "off"); ("Numerical", "0")] []; el "ValuePair" [("Literal", "on"); ("Numerical", "-1")] []]].
Definition sd_ext : xnode := el "ComponentType" [("Name", "ext"); ("Extends", "base")]
  [el "FixedPointParameter" [("Name", "gain"); ("Size", "16"); ("Integral", "3"); ("Fractional", "4"); ("Mapping", "Control:Gain,Device:0")] []].
Definition sd_library : xnode := el "ComponentLibrary" [] [sd_base; XText (lit " "); el "ComponentTypeSet" [] [sd_ext]].
Definition sd_instances : xnode := el "InstanceDefinition" []
  [el "Component" [("Name", "out"); ("Type", "ext"); ("ArrayLength", "2")] [];
   el "BitParameterBlock" [("Name", "flags"); ("Size", "8"); ("Mapping", "Control:Flags")]
     [el "BitParameter" [("Name", "low"); ("Pos", "0"); ("Size", "3")] []; el "BitParameter" [("Name", "high"); ("Pos", "3"); ("Size", "2"); ("Max", "2")] []];
   el "ParameterBlock" [("Name", "misc"); ("Mapping", "Control:Misc")]
     [el "FloatingPointParameter" [("Name", "ratio"); ("Min", "-1.5"); ("Max", "2e1")] [];
      el "StringParameter" [("Name", "label"); ("MaxLength", "10")] [];
      el "BooleanParameter" [("Name", "on"); ("ArrayLength", "4")] []]].
Definition sd_sub : xnode := el "Subsystem" [("Name", "card"); ("Type", "Card"); ("Mapping", "Card:0")] [sd_library; sd_instances].
Definition sd_sub2 : xnode := el "Subsystem" [("Name", "policy"); ("Type", "Virtual")]
  [el "ComponentLibrary" [] []; el "InstanceDefinition" [] [el "IntegerParameter" [("Name", "level")] []]].
Definition sd : xnode := el "SystemClass" [("Name", "Audio")] [sd_sub; XText (lit " "); sd_sub2].

(** The subsystem types known to the example. *)
Definition sd_plugins (ty : str) : option plugin :=
  if str_eqb ty (lit "Card") then Some (Plugin [lit "Card"; lit "Device"] [Creator (lit "Control") 1 64] false)
  else if str_eqb ty (lit "Virtual") then Some (Plugin [] [] true) else None.
Definition no_error : list event -> nat -> bool := fun _ _ => true.

Lemma sd_conforms : conforms sd.
Proof. apply conforms_check. vm_compute. reflexivity. Qed.
Lemma sd_nested : nested sd.
Proof. apply nested_checked. vm_compute. reflexivity. Qed.
Lemma sd_names : names_declared sd.
Proof. apply names_checked. vm_compute. reflexivity. Qed.
Lemma sd_flat : flat_types sd.
Proof. apply flat_checked. vm_compute. reflexivity. Qed.
Lemma sd_apart : bits_apart sd.
Proof. apply apart_checked; [apply sd_conforms|]. vm_compute. reflexivity. Qed.
Lemma sd_keys : keys_limited sd_plugins.
Proof. intros ty pl. unfold sd_plugins. destruct (str_eqb ty (lit "Card")); [intros E; injection E as <-; simpl; lia|]. destruct (str_eqb ty (lit "Virtual")); [intros E; injection E as <-; simpl; lia|discriminate]. Qed.
