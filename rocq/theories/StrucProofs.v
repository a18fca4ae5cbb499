(** Proofs about exported structures. *)
From Coq Require Import List Arith ZArith QArith Qabs Bool Ascii String Lia Lqa.
From Verif Require Import Base BaseProofs TextModel TextSpec TextProofs RealModel RealSpec RealProofs FixProofs FloatProofs ParamTypeModel ParamTypeSpec IntProofs BitModel TreeModel TreeProofs
  ArrayModel MapModel TypeModel TypeProofs XmlModel SyncModel DomXmlModel DeclModel DeclSpec DeclProofs StrucModel StrucSpec.
Import ListNotations.
Local Open Scope Z_scope.

(** ** Attributes *)

Lemma attr_find_app : forall nm a b, attr_find nm (a ++ b) = match attr_find nm a with Some v => Some v | None => attr_find nm b end.
Proof. intros nm a b. induction a as [|[k v] a IH]; [reflexivity|]. cbn [attr_find app]. destruct (str_eqb k nm); auto. Qed.

Lemma attr_name : forall n, match attr_find (lit "Name") (name_attr n) with Some v => v | None => [] end = n.
Proof. intros [|c n]; reflexivity. Qed.
Lemma attr_name_other : forall nm n, str_eqb (lit "Name") nm = false -> attr_find nm (name_attr n) = None.
Proof. intros nm [|c n] H; [reflexivity|]. cbn [name_attr attr_find]. rewrite H. reflexivity. Qed.
Lemma attr_length_other : forall nm len, str_eqb (lit "ArrayLength") nm = false -> attr_find nm (length_attr len) = None.
Proof. intros nm [|len] H; [reflexivity|]. cbn [length_attr attr_find]. rewrite H. reflexivity. Qed.

(** An attribute that the type, the length and the name do not set. *)
Lemma attr_type_none : forall t nm, existsb (str_eqb nm) [lit "Signed"; lit "Min"; lit "Max"; lit "Size"; lit "Integral"; lit "Fractional"] = false ->
  attr_find nm (type_attrs t) = None.
Proof.
  intros t nm H. cbn [existsb] in H. rewrite !orb_false_iff in H. destruct H as (A & B & C & D & E & F & _).
  destruct t; cbn [type_attrs attr_find]; rewrite ?(str_eqb_sym _ nm), ?A, ?B, ?C, ?D, ?E, ?F; reflexivity.
Qed.

Definition node (t : ptype) (ads : list adaptation) (len : nat) (n : str) : xnode :=
  XElem (xml_name (KdParam t)) (type_attrs t ++ length_attr len ++ name_attr n) (type_content t ads).

Lemma node_name : forall t ads len n, x_name (node t ads len n) = n.
Proof.
  intros. unfold x_name, x_attr0, x_attr, node. rewrite attr_find_app, attr_type_none by (vm_compute; reflexivity).
  rewrite attr_find_app, attr_length_other by (vm_compute; reflexivity). apply attr_name.
Qed.
Lemma node_mapping : forall t ads len n, decl_mapping (node t ads len n) = [].
Proof.
  intros. unfold decl_mapping, x_attr0, x_attr, node. rewrite attr_find_app, attr_type_none by (vm_compute; reflexivity).
  rewrite attr_find_app, attr_length_other, attr_name_other by (vm_compute; reflexivity). reflexivity.
Qed.
Lemma u64_bounds : ct_lo t_uint64 = 0 /\ ct_hi t_uint64 = 2 ^ 64 - 1. Proof. split; reflexivity. Qed.
Lemma u32_bounds : ct_lo t_uint32 = 0 /\ ct_hi t_uint32 = 2 ^ 32 - 1. Proof. split; reflexivity. Qed.
Lemma conv64 : forall z, 0 <= z < 2 ^ 64 -> convertTo t_uint64 (print_dec z) = Some z.
Proof. intros z H. apply convertTo_print_dec. destruct u64_bounds as [-> ->]. lia. Qed.
Lemma conv32 : forall z, 0 <= z < 2 ^ 32 -> convertTo t_uint32 (print_dec z) = Some z.
Proof. intros z H. apply convertTo_print_dec. destruct u32_bounds as [-> ->]. lia. Qed.
Lemma node_length : forall t ads len n, Z.of_nat len < 2 ^ 64 -> decl_length (node t ads len n) = Ok len.
Proof.
  intros t ads len n H. unfold decl_length, attr_num, x_attr, node. rewrite attr_find_app, attr_type_none by (vm_compute; reflexivity).
  rewrite attr_find_app. destruct len as [|len].
  - cbn [length_attr attr_find]. rewrite attr_name_other by (vm_compute; reflexivity). reflexivity.
  - cbn [length_attr attr_find]. change (str_eqb (lit "ArrayLength") (lit "ArrayLength")) with true. cbv iota. rewrite conv64 by lia. unfold omap. cbn [obind]. rewrite Nat2Z.id. reflexivity.
Qed.

(** ** Types *)

Lemma map_elems : forall A (f : A -> xnode) l, (forall a, is_elem (f a) = true) -> filter is_elem (map f l) = map f l.
Proof. intros A f l H. induction l as [|a l IH]; [reflexivity|]. cbn [map filter]. rewrite H, IH. reflexivity. Qed.

Lemma each_map : forall A B C (f : A -> B) (g : B -> outcome C) (h : A -> C) l, (forall a, In a l -> g (f a) = Ok (h a)) -> each g (map f l) = Ok (map h l).
Proof.
  intros A B C f g h l H. induction l as [|a l IH]; [reflexivity|]. cbn [map each]. rewrite H by (left; auto). cbn [obind]. rewrite IH by (intros; apply H; right; auto). reflexivity.
Qed.

Lemma decl_int_back : forall sg b lo hi len n, pt_wf (PInt sg b lo hi) = true -> decl_int (node (PInt sg b lo hi) [] len n) = Ok (PInt sg b lo hi, []).
Proof.
  intros sg b lo hi len n H. apply pt_wf_int in H. destruct H as (Hb & W1 & W2 & W3). unfold decl_int, attr_num, attr_bool, node, x_attr. rewrite !attr_find_app.
  cbn [type_attrs attr_find]. repeat match goal with |- context [str_eqb (lit ?a) (lit ?c)] => let r := eval vm_compute in (str_eqb (lit a) (lit c)) in change (str_eqb (lit a) (lit c)) with r end.
  cbv iota. assert (B8 : 0 <= 8 * Z.of_nat b <= 32) by (destruct Hb as [->|[->| ->]]; cbn; lia).
  rewrite conv64 by lia. cbn [obind]. assert (E : convert_bool (xml_bool sg) = Some sg) by (destruct sg; reflexivity). rewrite E. cbn [obind].
  assert (S8 : (8 * Z.of_nat b =? 8) || (8 * Z.of_nat b =? 16) || (8 * Z.of_nat b =? 32) = true) by (destruct Hb as [->|[->| ->]]; reflexivity). rewrite S8.
  rewrite bytes_div. cbv zeta. unfold width_lo, width_hi in *.
  rewrite (convertTo_print_dec (TextModel.CType sg b) lo), (convertTo_print_dec (TextModel.CType sg b) hi)
    by (unfold ct_lo, ct_hi; cbn [ct_signed ct_bytes]; destruct sg; lia).
  cbn [obind]. destruct (Z.ltb_spec hi lo); [lia|]. reflexivity.
Qed.

Lemma decl_enum_back : forall b ps len n, pt_wf (PEnum b ps) = true -> decl_enum (node (PEnum b ps) [] len n) = Ok (PEnum b ps).
Proof.
  intros b ps len n H. cbn [pt_wf] in H. apply andb_true_iff in H. destruct H as [Hb H]. rewrite size_ok_spec in Hb.
  unfold decl_enum, node, x_attr. rewrite attr_find_app. cbn [type_attrs attr_find]. change (str_eqb (lit "Size") (lit "Size")) with true. cbv iota.
  assert (B8 : 0 <= 8 * Z.of_nat b <= 32) by (destruct Hb as [->|[->| ->]]; cbn; lia). rewrite conv64 by lia. unfold x_elems. cbn [x_content type_content].
  rewrite map_elems by reflexivity. rewrite (each_map _ _ _ pair_xml decl_pair (fun p => p)).
  - cbn [obind]. rewrite map_id, bytes_div. reflexivity.
  - intros [l v] I. rewrite forallb_forall in H. specialize (H _ I). cbn [snd] in H. unfold decl_pair, pair_xml. cbn [x_type]. tags.
    unfold attr_num, x_attr, x_attr0, no_child, x_elems. cbn [attr_find fst snd x_content filter]. tags. unfold in_ctype in H. rewrite convertTo_print_dec by (apply in_ctype_spec; exact H).
    cbn [obind x_attr attr_find]. tags. reflexivity.
Qed.

Lemma decl_fix_back : forall b i m len n, pt_wf (PFix b i m) = true -> decl_fix (node (PFix b i m) [] len n) = Ok (PFix b i m).
Proof.
  intros b i m len n H. cbn [pt_wf] in H. apply andb_true_iff in H. destruct H as [Hb H]. rewrite size_ok_spec in Hb. apply Z.leb_le in H. unfold fix_util_bits in H.
  assert (B8 : 0 <= 8 * Z.of_nat b <= 32) by (destruct Hb as [->|[->| ->]]; cbn; lia).
  unfold decl_fix, attr_num, node, x_attr. rewrite !attr_find_app. cbn [type_attrs attr_find].
  repeat match goal with |- context [str_eqb (lit ?a) (lit ?c)] => let r := eval vm_compute in (str_eqb (lit a) (lit c)) in change (str_eqb (lit a) (lit c)) with r end. cbv iota.
  rewrite conv64, !conv32 by lia. cbn [obind]. assert (E : to_ctype t_uint32 (Z.of_nat i + Z.of_nat m + 1) = Z.of_nat i + Z.of_nat m + 1).
  { apply to_ctype_id; [cbn; lia|]. destruct u32_bounds as [-> ->]. lia. }
  rewrite E. destruct (Z.ltb_spec (8 * Z.of_nat b) (Z.of_nat i + Z.of_nat m + 1)); [lia|]. cbn [no_child x_elems x_content type_content filter obind].
  rewrite bytes_div, !Nat2Z.id. reflexivity.
Qed.

(** ** Floating point bounds *)

Lemma f6_text : forall q, real_text (negb (Qle_bool 0 q)) (print_f6 q) (inject_Z (round_even (Qabs q * inject_Z (10 ^ 6))) / inject_Z (10 ^ 6)).
Proof.
  intros q. unfold print_f6. cbv zeta. set (z := round_even (Qabs q * inject_Z (10 ^ 6))).
  assert (Hz : 0 <= z).
  { unfold z. destruct (round_even_bounds (Qabs q * inject_Z (10 ^ 6)) 0 (Qround.Qceiling (Qabs q * inject_Z (10 ^ 6)))) as [A _]; [|exact A].
    split; [change (inject_Z 0) with 0%Q; apply Qmult_le_0_compat; [apply Qabs_nonneg|discriminate]|apply Qround.Qle_ceiling]. }
  assert (M := Z.mod_pos_bound z (10 ^ 6) ltac:(lia)). assert (D : 0 <= z / 10 ^ 6) by (apply Z.div_pos; lia).
  destruct (print_base_dec (z / 10 ^ 6) D) as [ds [A1 [A2 A3]]]. destruct (pad0_dec 6 (z mod 10 ^ 6)) as [ds2 [B1 [B2 B3]]]; [lia|exact M|].
  exists (if Qle_bool 0 q then [] else ["-"%char]), (print_base 10 (z / 10 ^ 6)), ds, ("."%char :: pad0 6 (print_base 10 (z mod 10 ^ 6))), (pad0 6 (print_base 10 (z mod 10 ^ 6))), ds2, [], 0.
  split; [rewrite app_nil_r; reflexivity|]. split; [destruct (Qle_bool 0 q); cbn; auto|]. split; [auto|]. split; [auto|]. split; [auto|].
  split; [intros E; apply app_eq_nil in E; destruct E; congruence|]. split; [left; auto|].
  assert (E : positional 10 (ds ++ ds2) = z).
  { rewrite positional_app, fold_positional, A3, B3, B2. rewrite (Z_div_mod_eq_full z (10 ^ 6)) at 3. change (10 ^ Z.of_nat 6) with (10 ^ 6). ring. }
  rewrite E, B2. reflexivity.
Qed.

Lemma round_even_near : forall q z, (Qabs (q - inject_Z z) < 1 # 2)%Q -> round_even q = z.
Proof.
  intros q z H. assert (E := round_even_error q). set (w := round_even q) in *.
  assert (K : (Qabs (inject_Z w - inject_Z z) < 1)%Q).
  { setoid_replace (inject_Z w - inject_Z z)%Q with ((inject_Z w - q) + (q - inject_Z z))%Q by ring. eapply Qle_lt_trans; [apply Qabs_triangle|lra]. }
  assert (K' : (Qabs (inject_Z (w - z)) < inject_Z 1)%Q).
  { eapply Qle_lt_trans; [|exact K]. apply Qle_lteq. right. apply Qabs_wd. unfold Z.sub, Qminus. rewrite inject_Z_plus, inject_Z_opp. reflexivity. }
  change (Qabs (inject_Z (w - z))) with (inject_Z (Z.abs (w - z))) in K'. rewrite <- Zlt_Qlt in K'. lia.
Qed.

Lemma short_bound_kept : forall q, short_bound q -> (round32 (inject_Z (round_even (Qabs q * inject_Z (10 ^ 6))) / inject_Z (10 ^ 6)) == Qabs q)%Q.
Proof.
  intros q [(z & Hz & E)|(F & z & E)].
  - assert (W : round_even (Qabs q * inject_Z (10 ^ 6)) = z).
    { apply round_even_near. set (x := (inject_Z z / inject_Z (10 ^ 6))%Q) in *.
      assert (X : (Qabs x <= 8)%Q).
      { rewrite Qabs_pos; [|apply Qle_shift_div_l; [reflexivity|]; rewrite Qmult_0_l; change 0%Q with (inject_Z 0); rewrite <- Zle_Qle; lia].
        apply Qle_shift_div_r; [reflexivity|]. change (8 * inject_Z (10 ^ 6))%Q with (inject_Z (8 * 10 ^ 6)). rewrite <- Zle_Qle. lia. }
      assert (R : (Qabs (round32 x - x) <= 8 * pow2 (-24))%Q).
      { destruct (round_fp_rel_error 24 (-149) x) as [K|K]; fold round32 in K.
        - eapply Qle_trans; [exact K|]. apply Qmult_le_compat_r; [auto|vm_compute; discriminate].
        - eapply Qle_trans; [exact K|vm_compute; discriminate]. }
      setoid_replace (Qabs q * inject_Z (10 ^ 6) - inject_Z z)%Q with ((round32 x - x) * inject_Z (10 ^ 6))%Q by (rewrite E; unfold x; field; discriminate).
      rewrite Qabs_Qmult. eapply Qle_lt_trans; [apply Qmult_le_compat_r; [exact R|discriminate]|vm_compute; reflexivity]. }
    rewrite W, E. reflexivity.
  - assert (W : round_even (Qabs q * inject_Z (10 ^ 6)) = Z.abs z * 10 ^ 6).
    { rewrite <- (round_even_int (Z.abs z * 10 ^ 6)). apply round_even_comp. rewrite E, inject_Z_mult. reflexivity. }
    rewrite W. assert (Q0 : (inject_Z (Z.abs z * 10 ^ 6) / inject_Z (10 ^ 6) == Qabs q)%Q).
    { rewrite E. change (Qabs (inject_Z z)) with (inject_Z (Z.abs z)). rewrite inject_Z_mult. field. discriminate. }
    destruct F as (k & e & K1 & K2 & K3). unfold round32. rewrite (round_fp_comp _ _ _ _ Q0). apply (round_fp_exact 24 (-149) (Z.abs k) e); auto; [|lia|lia].
    rewrite K1, Qabs_Qmult. change (Qabs (inject_Z k)) with (inject_Z (Z.abs k)). apply Qmult_comp; [reflexivity|]. apply Qabs_pos. apply Qlt_le_weak, pow2_pos.
Qed.

Lemma f6_back : forall q, short_bound q -> (Qabs q <= max32)%Q -> exists v, convert_float (print_f6 q) = Some v /\ (signed_q v == q)%Q.
Proof.
  intros q S M. assert (K := short_bound_kept q S). destruct (convert_real_complete 24 (-149) max32 _ _ _ (f6_text q)) as (r & A & B).
  { fold round32. rewrite K. exact M. }
  exists (negb (Qle_bool 0 q), r). split; [exact A|]. fold round32 in B. rewrite K in B. unfold signed_q. cbn [fst snd].
  destruct (Qle_bool 0 q) eqn:E; cbn [negb]; rewrite B.
  - apply Qabs_pos, Qle_bool_iff. auto.
  - assert (~ 0 <= q)%Q by (intros C; apply Qle_bool_iff in C; congruence). rewrite Qabs_neg by lra. lra.
Qed.

Lemma decl_float_back : forall lo hi len n, pt_wf (PFloat lo hi) = true -> short_bound lo -> short_bound hi ->
  exists lo' hi', decl_float (node (PFloat lo hi) [] len n) = Ok (PFloat lo' hi') /\ (lo == lo')%Q /\ (hi == hi')%Q.
Proof.
  intros lo hi len n H S1 S2. cbn [pt_wf] in H. rewrite !andb_true_iff, !Qle_bool_iff in H. destruct H as [[H1 H2] H3].
  assert (A1 : (Qabs lo <= max32)%Q) by (apply Qabs_Qle_condition; lra). assert (A2 : (Qabs hi <= max32)%Q) by (apply Qabs_Qle_condition; lra).
  destruct (f6_back lo S1 A1) as (a & Ea & Va), (f6_back hi S2 A2) as (b & Eb & Vb). exists (signed_q a), (signed_q b).
  split; [|split; symmetry; auto]. unfold decl_float, attr_num, attr_real, node, x_attr. rewrite !attr_find_app. cbn [type_attrs attr_find].
  repeat match goal with |- context [str_eqb (lit ?a) (lit ?c)] => let r := eval vm_compute in (str_eqb (lit a) (lit c)) in change (str_eqb (lit a) (lit c)) with r end. cbv iota.
  rewrite conv64 by lia. cbn [obind]. change (32 =? 32) with true. cbv iota. rewrite Ea, Eb. cbn [obind].
  assert (L : Qle_bool (signed_q a) (signed_q b) = true) by (apply Qle_bool_iff; lra). rewrite L. reflexivity.
Qed.

(** ** Elements *)

Lemma decl_param_back : forall t len n, pt_wf t = true -> Z.of_nat len < 2 ^ 64 ->
  match t with PFloat lo hi => short_bound lo /\ short_bound hi | _ => True end ->
  exists t' : ptype, same_ptype t t' /\ decl_tel (node t [] len n) = Ok (TLeaf n (scalar_or_array t' len) []).
Proof.
  intros t len n W L S. assert (N := node_name t [] len n). assert (M := node_mapping t [] len n). assert (D := node_length t [] len n L).
  unfold node at 1. rewrite decl_tel_unfold. cbv zeta.
  change (XElem (xml_name (KdParam t)) (type_attrs t ++ length_attr len ++ name_attr n) (type_content t [])) with (node t [] len n).
  rewrite D. cbn [obind]. unfold leaf. rewrite N, M.
  destruct t as [sg b lo hi| |b ps|b i m|lo hi]; cbn [xml_name kind_text]; tags.
  - exists (PInt sg b lo hi). split; [reflexivity|]. rewrite (decl_int_back sg b lo hi len n W). reflexivity.
  - exists PBool. split; reflexivity.
  - exists (PEnum b ps). split; [reflexivity|]. rewrite (decl_enum_back b ps len n W). reflexivity.
  - exists (PFix b i m). split; [reflexivity|]. rewrite (decl_fix_back b i m len n W). reflexivity.
  - destruct S as [S1 S2]. destruct (decl_float_back lo hi len n W S1 S2) as (lo' & hi' & E & Q1 & Q2). exists (PFloat lo' hi'). split; [split; auto|]. rewrite E. reflexivity.
Qed.

Definition reloads (e : elem) : Prop :=
  exists t, decl_tel (structure_xml e) = Ok t /\
    forall names p, exists l, load_tel names p t = Some l /\ forall pop lib, exists x, inst_one pop lib l = Some x /\ same_structure e (forget x).

Lemma reload_all : forall cs, (forall c, In c cs -> reloads c) ->
  exists ts, each decl_tel (map structure_xml cs) = Ok ts /\
    forall names p, exists ls, load_all (load_tel names p) ts = Some ls /\
      forall pop lib, exists xs, load_all (inst_one pop lib) ls = Some xs /\ Forall2 same_structure cs (map forget xs).
Proof.
  induction cs as [|c cs IH]; intros H.
  - exists []. split; [reflexivity|]. intros. exists []. split; [reflexivity|]. intros. exists []. split; [reflexivity|constructor].
  - destruct (H c) as (t & D & L); [left; auto|]. destruct IH as (ts & Ds & Ls); [intros; apply H; right; auto|].
    exists (t :: ts). split; [cbn [map each]; rewrite D; cbn [obind]; rewrite Ds; reflexivity|]. intros names p.
    destruct (L names p) as (l & L1 & L2), (Ls names p) as (ls & M1 & M2). exists (l :: ls). split; [cbn [load_all]; rewrite L1, M1; reflexivity|]. intros pop lib.
    destruct (L2 pop lib) as (x & X1 & X2), (M2 pop lib) as (xs & Y1 & Y2). exists (x :: xs). split; [cbn [load_all]; rewrite X1, Y1; reflexivity|]. constructor; auto.
Qed.

Lemma structure_is_elem : forall e, is_elem (structure_xml e) = true.
Proof. intros [n k cs]. reflexivity. Qed.

Lemma leaf_reloads : forall n k k' e, decl_tel (structure_xml e) = Ok (TLeaf n k' []) -> e = Elem n k [] -> same_class k k' -> reloads e.
Proof.
  intros n k k' e D -> S. exists (TLeaf n k' []). split; [exact D|]. intros names p. exists (LLeaf n k' []). split; [reflexivity|]. intros pop lib.
  exists (Inst n k' [] []). split; [reflexivity|]. cbn [forget map]. constructor; [auto|constructor].
Qed.

Ltac attrs := cbn [attr_find app]; repeat match goal with |- context [str_eqb (lit ?a) (lit ?c)] =>
  let r := eval vm_compute in (str_eqb (lit a) (lit c)) in change (str_eqb (lit a) (lit c)) with r end; cbv iota.

Lemma bit_back : forall b n t, bit_wf t = true -> bt_block t = b ->
  decl_bit b (structure_xml (Elem n (KdBit t) [])) = Ok (n, t).
Proof.
  intros b n [p s mx bl] W E. unfold bit_wf in W. cbn [bt_block bt_pos bt_size bt_max] in *. subst b. rewrite !andb_true_iff, !orb_true_iff, !Nat.eqb_eq, !Z.leb_le in W.
  destruct W as (((((B & P0) & S1) & PS) & M0) & MX). assert (B8 : 8 * Z.of_nat bl <= 64) by (destruct B as [[[->| ->]| ->]| ->]; cbn; lia).
  cbn [structure_xml xml_name kind_text kind_attrs bt_block bt_pos bt_size bt_max]. unfold decl_bit. cbn [x_type]. tags.
  unfold attr_num, x_name, x_attr0, decl_length, attr_num, x_attr. attrs.
  rewrite max_encodable in MX by lia.
  assert (2 ^ s <= 2 ^ 64) by (apply Z.pow_le_mono_r; lia).
  rewrite !conv64 by lia. cbn [obind]. unfold to_ctype, t_uint64. cbn [ct_signed ct_bytes]. change (8 * Z.of_nat 8) with 64. rewrite Z.mod_small by lia. cbn [andb].
  destruct (Z.ltb_spec (8 * Z.of_nat bl) (p + s)); [lia|]. destruct (Z.ltb_spec s 1); [lia|]. destruct (Z.ltb_spec 64 s); [lia|]. cbn [orb].
  rewrite max_encodable by lia. destruct (Z.ltb_spec (2 ^ s - 1) mx); [lia|].
  rewrite attr_name_other by (vm_compute; reflexivity). unfold omap. cbn [obind no_child x_elems filter]. assert (N := attr_name n). rewrite N. reflexivity.
Qed.

Theorem element_reloads : forall e, elem_wf e = true -> exportable e -> reloads e.
Proof.
  induction e as [n k cs IH] using elem_ind_nested. intros W X. rewrite Forall_forall in IH. inversion X as [n' k' cs' K XC]; subst n' k' cs'.
  assert (BLK : k = KdBlock \/ k = KdComponent -> reloads (Elem n k cs)).
  { intros KB. destruct (reload_all cs) as (ts & D & L).
    { intros c I. apply IH; [auto| |auto]. assert (forallb elem_wf cs = true) as F by (destruct KB as [->| ->]; exact W). rewrite forallb_forall in F. auto. }
    exists (TBlock n [] 0 ts). split.
    - assert (SX : structure_xml (Elem n k cs) = XElem (lit "ParameterBlock") (name_attr n) (map structure_xml cs)) by (destruct KB as [->| ->]; reflexivity).
      rewrite SX, decl_tel_unfold. cbv zeta. unfold decl_length, attr_num, x_name, decl_mapping, x_attr0, x_attr.
      rewrite ?(attr_name_other (lit "ArrayLength")), ?(attr_name_other (lit "Mapping")) by (vm_compute; reflexivity). rewrite attr_name. unfold omap. cbn [obind]. tags. unfold x_elems. cbn [x_content].
      rewrite map_elems by apply structure_is_elem. rewrite D. reflexivity.
    - intros names p. destruct (L names None) as (ls & L1 & L2). exists (LBlock n [] 0 ls). split; [rewrite load_block, L1; reflexivity|].
      intros pop lib. destruct (L2 pop lib) as (xs & X1 & X2). exists (Inst n KdBlock [] xs). split; [rewrite inst_block, X1; reflexivity|].
      cbn [forget]. constructor; auto. destruct KB as [->| ->]; [left; reflexivity|right; auto]. }
  destruct k as [| | | |b|t|t|t len|mx]; auto; try (destruct K; fail); try discriminate W.
  - cbn [elem_wf] in W. rewrite forallb_forall in W.
    assert (BC : exists bits, cs = map (fun nb => Elem (fst nb) (KdBit (snd nb)) []) bits /\ each (decl_bit b) (map structure_xml cs) = Ok bits).
    { clear IH X XC BLK K. induction cs as [|c cs IHc]; [exists []; split; reflexivity|]. destruct IHc as (bits & E1 & E2); [intros; apply W; right; auto|].
      specialize (W c (or_introl eq_refl)). destruct c as [m [| | | | |t| | |] [|]]; try discriminate W. cbn [bit_child_wf] in W. apply andb_true_iff in W. destruct W as [W1 W2]. apply Nat.eqb_eq in W2.
      exists ((m, t) :: bits). split; [cbn [map fst snd]; congruence|]. cbn [map each]. rewrite bit_back by auto. cbn [obind]. rewrite E2. reflexivity. }
    destruct BC as (bits & E1 & E2). cbn [kind_exportable] in K. exists (TBits n b [] bits). split.
    + cbn [structure_xml xml_name kind_text kind_attrs]. rewrite decl_tel_unfold. cbv zeta. unfold decl_length, attr_num, x_name, decl_mapping, x_attr0, x_attr. attrs.
      rewrite ?(attr_name_other (lit "ArrayLength")), ?(attr_name_other (lit "Mapping")) by (vm_compute; reflexivity). rewrite attr_name. unfold omap. cbn [obind]. rewrite conv64 by lia. cbn [obind]. rewrite bytes_div. unfold x_elems. cbn [x_content].
      rewrite map_elems by apply structure_is_elem. rewrite E2. reflexivity.
    + intros names p. exists (LBits n b [] bits). split; [reflexivity|]. intros pop lib. eexists. split; [reflexivity|]. cbn [forget]. rewrite map_map. constructor; [left; reflexivity|].
      rewrite E1. clear. induction bits as [|[m t] bits IHb]; cbn [map fst snd forget]; constructor; auto. constructor; [left; reflexivity|constructor].
  - cbn [elem_wf] in W. apply andb_true_iff in W. destruct W as [W1 W2]. destruct cs; [|discriminate]. 
    assert (Hc : match t with PFloat lo hi => short_bound lo /\ short_bound hi | _ => True end) by (destruct t; auto).
    destruct (decl_param_back t 0 n W1) as (t' & S & D); auto. { cbn. lia. }
    apply (leaf_reloads n (KdParam t) (KdParam t')); auto. left. exact S.
  - cbn [elem_wf] in W. rewrite !andb_true_iff in W. destruct W as [[W1 W2] W3]. destruct cs; [|discriminate]. apply Nat.leb_le in W2. destruct K as [K1 K2].
    destruct (decl_param_back t len n W1 K1 K2) as (t' & S & D).
    apply (leaf_reloads n (KdArray t len) (KdArray t' len)); auto; [|left; split; auto].
    destruct len as [|len]; [lia|]. unfold node in D. cbn [structure_xml xml_name kind_text kind_attrs] in *. rewrite <- app_assoc. exact D.
  - cbn [elem_wf] in W. destruct cs; [|discriminate]. cbn [kind_exportable] in K. apply (leaf_reloads n (KdString mx) (KdString mx)); auto; [|left; reflexivity].
    cbn [structure_xml xml_name kind_text kind_attrs]. rewrite decl_tel_unfold. cbv zeta. unfold leaf, decl_length, attr_num, x_name, decl_mapping, x_attr0, x_attr. attrs.
    rewrite ?(attr_name_other (lit "ArrayLength")), ?(attr_name_other (lit "Mapping")) by (vm_compute; reflexivity). rewrite attr_name. unfold omap. cbn [obind]. rewrite conv64 by lia. cbn [obind no_child x_elems filter]. rewrite Nat2Z.id. reflexivity.
Qed.

(** ** Systems *)

Lemma subsystem_reloads : forall lib fuel ty pl n cs, lib ty = Some pl -> (forall c, In c cs -> elem_wf c = true /\ exportable c) ->
  exists xs, load_subsystem lib fuel (subsystem_file ty (n, map structure_xml cs)) = Ok (n, (Subsys [] (pl_keys pl) (pl_creators pl) (pl_virtual pl), xs))
    /\ Forall2 same_structure cs (map forget xs).
Proof.
  intros lib fuel ty pl n cs Hl Hc. destruct (reload_all cs) as (ts & D & L); [intros c I; destruct (Hc c I); apply element_reloads; auto|].
  destruct (L [] None) as (ls & L1 & L2). destruct (L2 (populate fuel []) []) as (xs & X1 & X2). exists xs. split; [|exact X2].
  unfold subsystem_file. cbn [fst snd]. unfold load_subsystem, child_or_last, decl_mapping, x_name, x_attr0, x_attr, x_elems. cbn [x_type x_content filter is_elem]. attrs. rewrite Hl. cbn [load_mapping find x_type].
  repeat match goal with |- context [str_eqb (lit ?a) (lit ?c)] => let r := eval vm_compute in (str_eqb (lit a) (lit c)) in change (str_eqb (lit a) (lit c)) with r end.
  cbv iota. cbn [obind decl_library rev app x_content]. rewrite map_elems by apply structure_is_elem. rewrite D. cbn [obind]. unfold load_structure. cbn [load_library map]. rewrite L1.
  unfold create_instances. rewrite X1. reflexivity.
Qed.

Lemma system_reloads : forall lib hw fuel nm ty pl subs, lib ty = Some pl -> pl_virtual pl = true ->
  (forall s, In s subs -> e_kind s = KdSubsystem /\ forall c, In c (e_children s) -> elem_wf c = true /\ exportable c) ->
  exists y, load_system lib hw fuel nm (structure_file nm ty (map (fun s => (e_name s, map structure_xml (e_children s))) subs)) = Ok y
    /\ same_structure (Elem nm KdSystem subs) (sy_root y).
Proof.
  intros lib hw fuel nm ty pl subs Hl Hv Hs.
  assert (K : exists r, each (load_subsystem lib fuel) (map (subsystem_file ty) (map (fun s => (e_name s, map structure_xml (e_children s))) subs)) = Ok r
    /\ (exists objs, map_subsystems (map snd r) = Ok objs) /\ Forall2 same_structure subs (sub_elems (map fst r) (map snd r))).
  { induction subs as [|s subs IH]; [exists []; split; [reflexivity|]; split; [exists []; reflexivity|constructor]|].
    destruct IH as (r & R1 & (objs & R2) & R3); [intros; apply Hs; right; auto|]. destruct (Hs s) as [K C]; [left; auto|]. destruct s as [n k cs]. cbn [e_kind e_children e_name] in *. subst k.
    destruct (subsystem_reloads lib fuel ty pl n cs Hl C) as (xs & X1 & X2). eexists. split; [cbn [map each e_name e_children]; rewrite X1; cbn [obind]; rewrite R1; reflexivity|].
    split.
    - eexists. cbn [map snd map_subsystems]. unfold map_subsystem at 1. cbn [sb_virtual]. rewrite Hv. cbn [obind]. rewrite R2. reflexivity.
    - cbn [map fst snd sub_elems]. constructor; auto. constructor; auto. left; reflexivity. }
  destruct K as (r & R1 & (objs & R2) & R3). eexists. split.
  - unfold load_system, structure_file, x_name, x_attr0, x_attr, x_elems. cbn [x_type x_content]. attrs. rewrite str_eqb_refl. cbn [andb].
    rewrite map_elems by reflexivity. rewrite R1. cbn [obind]. rewrite R2. reflexivity.
  - cbn [sy_root]. constructor; auto. left; reflexivity.
Qed.

(** ** The same structure *)

Lemma same_class_cases : forall k k', same_class k k' ->
  match k with
  | KdParam t => exists t', k' = KdParam t' /\ same_ptype t t'
  | KdArray t n => exists t', k' = KdArray t' n /\ same_ptype t t'
  | KdComponent => k' = KdComponent \/ k' = KdBlock
  | _ => k' = k
  end.
Proof.
  intros k k' [H|[-> ->]]; [|auto]. destruct k; destruct k'; cbn [same_kind] in H; try discriminate H; auto; eauto; try congruence. destruct H as [H ->]. eauto.
Qed.

Lemma same_ptype_size : forall t t', same_ptype t t' -> pt_size t = pt_size t'.
Proof. intros [] [] H; cbn [same_ptype] in H; try discriminate H; try (injection H; intros; subst); auto. Qed.

Lemma Forall2_nth : forall A B (R : A -> B -> Prop) l l' i, Forall2 R l l' ->
  match nth_error l i, nth_error l' i with Some a, Some b => R a b | None, None => True | _, _ => False end.
Proof. intros A B R l l' i H. revert i. induction H; intros [|i]; simpl; auto. apply IHForall2. Qed.

Lemma same_footprint : forall e e', same_structure e e' -> footprint e = footprint e'.
Proof.
  induction e as [n k cs IH] using elem_ind_nested. intros e' H. inversion H as [n' k1 k' cs1 cs' S F]; subst. apply same_class_cases in S.
  assert (E : list_sum (map footprint cs) = list_sum (map footprint cs')).
  { clear H S. induction F as [|c c' l l' R F IHF]; [reflexivity|]. inversion IH as [|? ? I1 I2]; subst. cbn [map]. unfold list_sum in *. cbn [fold_right]. rewrite (I1 _ R). f_equal. auto. }
  destruct k as [| | | |b|t|t|t len|mx]; try (subst k'; cbn [footprint]; auto; fail).
  - destruct S as [->| ->]; cbn [footprint]; auto.
  - destruct S as (t' & -> & T). cbn [footprint]. apply same_ptype_size; auto.
  - destruct S as (t' & -> & T). cbn [footprint]. unfold ArrayModel.array_footprint. rewrite (same_ptype_size _ _ T). reflexivity.
Qed.

Lemma same_at : forall p e e', same_structure e e' ->
  match elem_at e p, elem_at e' p with Some a, Some b => same_structure a b | None, None => True | _, _ => False end.
Proof.
  induction p as [|i p IH]; intros e e' H; cbn [elem_at]; [auto|]. inversion H as [n k k' cs cs' S F]; subst. cbn [e_children].
  assert (N := Forall2_nth _ _ _ _ _ i F). destruct (nth_error cs i), (nth_error cs' i); auto; try (destruct N; fail). apply IH. auto.
Qed.

Lemma same_offset : forall p e e' o, same_structure e e' -> offset_in e p o = offset_in e' p o.
Proof.
  induction p as [|i p IH]; intros e e' o H; cbn [offset_in]; [auto|]. inversion H as [n k k' cs cs' S F]; subst. cbn [e_children].
  assert (N := Forall2_nth _ _ _ _ _ i F). destruct (nth_error cs i), (nth_error cs' i); try tauto.
  assert (E : list_sum (map footprint (firstn i cs)) = list_sum (map footprint (firstn i cs'))).
  { clear - F. revert i. induction F as [|c c' l l' R F IHF]; intros [|i]; [reflexivity..|]. cbn [firstn map]. unfold list_sum in *. cbn [fold_right]. rewrite (same_footprint _ _ R). f_equal. apply IHF. }
  rewrite E. apply IH; auto.
Qed.

Lemma same_path : forall p e e', same_structure e e' -> (forall q x, elem_at e q = Some x -> e_name x <> []) -> path_in e p = path_in e' p.
Proof.
  induction p as [|i p IH]; intros e e' H N; inversion H as [n k k' cs cs' S F]; subst; cbn [path_in]; unfold path_name; cbn [e_name e_kind e_children].
  - destruct n; [destruct (N [] _ eq_refl); reflexivity|reflexivity].
  - destruct n as [|c n]; [destruct (N [] _ eq_refl); reflexivity|]. f_equal. f_equal. assert (M := Forall2_nth _ _ _ _ _ i F).
    destruct (nth_error cs i) as [x|] eqn:Ei, (nth_error cs' i) as [x'|]; try tauto. apply IH; auto. intros q y Hq. apply (N (i :: q) y). cbn [elem_at e_children]. rewrite Ei. exact Hq.
Qed.

Lemma same_wf : forall e e', same_structure e e' -> elem_wf e = true -> elem_wf e' = true.
Proof.
  induction e as [n k cs IH] using elem_ind_nested. intros e' H W. inversion H as [n' k1 k' cs1 cs' S F]; subst. apply same_class_cases in S. rewrite Forall_forall in IH.
  assert (P : forall t t', same_ptype t t' -> pt_wf t = true -> pt_wf t' = true).
  { intros t t' T. destruct t, t'; cbn [same_ptype] in T; try discriminate T; try (inversion T; subst; auto; fail). destruct T as [T1 T2]. cbn [pt_wf]. rewrite T1, T2. auto. }
  assert (Z0 : (Datatypes.length cs =? 0)%nat = (Datatypes.length cs' =? 0)%nat) by (destruct F; reflexivity).
  assert (C : forallb elem_wf cs = true -> forallb elem_wf cs' = true).
  { intros W'. clear W H S Z0. induction F as [|c c' l l' R F IHF]; [reflexivity|]. cbn [forallb] in *. apply andb_true_iff in W'. destruct W' as [W1 W2].
    rewrite (IH c (or_introl eq_refl) _ R W1). apply IHF; auto. intros x I. apply IH. right; auto. }
  destruct k as [| | | |b|t|t|t len|mx]; try (subst k'; cbn [elem_wf] in *; auto; fail).
  - destruct S as [->| ->]; cbn [elem_wf] in *; auto.
  - subst k'. cbn [elem_wf] in *. clear IH H C. induction F as [|c c' l l' R F IHF]; [reflexivity|]. cbn [forallb] in *. apply andb_true_iff in W. destruct W as [W1 W2].
    rewrite IHF; auto; [|destruct F; reflexivity]. rewrite andb_true_r. inversion R as [m q q' ds ds' Sq Fd]; subst. apply same_class_cases in Sq. destruct q; try discriminate W1. subst q'.
    destruct Fd; [exact W1|discriminate].
  - destruct S as (t' & -> & T). cbn [elem_wf] in *. apply andb_true_iff in W. rewrite <- Z0, (P _ _ T) by tauto. tauto.
  - destruct S as (t' & -> & T). cbn [elem_wf] in *. rewrite !andb_true_iff in *. rewrite <- Z0, (P _ _ T) by tauto. tauto.
  - subst k'. cbn [elem_wf] in *. congruence.
Qed.

Lemma same_values : forall t t' f, same_ptype t t' ->
  (forall s, to_bb_str t f s = to_bb_str t' f s) /\ (forall v, to_bb_val t f v = to_bb_val t' f v)
  /\ (forall u, from_bb_str t f u = from_bb_str t' f u) /\ (forall k u, from_bb_val t k u = from_bb_val t' k u) /\ pt_default t = pt_default t'.
Proof.
  intros t t' f T. destruct t, t'; cbn [same_ptype] in T; try discriminate T; try (inversion T; subst; auto; fail). destruct T as [T1 T2].
  assert (R : forall q, float_in_range fmin fmax q = float_in_range fmin0 fmax0 q) by (intros q; unfold float_in_range; rewrite T1, T2; reflexivity).
  split; [intros s|split; [intros v|split; [|split]; reflexivity]].
  - cbn [to_bb_str]. unfold float_of_str. destruct (_ && _); [reflexivity|]. destruct (f_raw f).
    + destruct (convertTo _ _); [rewrite R|]; reflexivity.
    + destruct (convert_float s); [rewrite R|]; reflexivity.
  - cbn [to_bb_val]. destruct v; auto. unfold float_of_dbl. destruct d; auto; cbv zeta; rewrite R; reflexivity.
Qed.
