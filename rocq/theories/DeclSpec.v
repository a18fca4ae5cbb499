(** Specification vocabulary for structure files: what a declaration means, and what the schemas of /repo/schemas guarantee.
    Independent of the functions of the model. *)
From Coq Require Import List Arith ZArith QArith Qabs Bool Ascii String Lia.
From Verif Require Import Base TextSpec RealModel RealSpec ParamTypeModel ParamTypeSpec BitModel TreeModel TreeSpec MapModel MapSpec TypeModel TypeSpec XmlModel DeclModel.
Import ListNotations.
Local Open Scope Z_scope.

(** ** Attributes *)

(** The integer of an attribute: [dflt] when absent, otherwise the number written, within the bounds; no minus sign for an
    unsigned one (not even "-0"). *)
Definition int_attr (signed : bool) (bytes : nat) (nm : str) (dflt : Z) (x : xnode) (v : Z) : Prop :=
  (x_attr nm x = None /\ v = dflt)
  \/ exists s, x_attr nm x = Some s /\ int_text s v /\ width_lo signed bytes <= v <= width_hi signed bytes
               /\ (signed = false -> ~ In "-"%char s).

(** Natural numbers of 64 bits and of 32 bits. *)
Definition size_attr (nm : str) (dflt : Z) (x : xnode) (v : Z) : Prop := int_attr false 8 nm dflt x v.
Definition word_attr (nm : str) (dflt : Z) (x : xnode) (v : Z) : Prop := int_attr false 4 nm dflt x v.

Definition bool_attr (nm : str) (dflt : bool) (x : xnode) (v : bool) : Prop :=
  (x_attr nm x = None /\ v = dflt)
  \/ (v = true /\ (x_attr nm x = Some (lit "1") \/ x_attr nm x = Some (lit "true") \/ x_attr nm x = Some (lit "TRUE")))
  \/ (v = false /\ (x_attr nm x = Some (lit "0") \/ x_attr nm x = Some (lit "false") \/ x_attr nm x = Some (lit "FALSE"))).

(** The real of an attribute, rounded to the nearest float or double, of magnitude at most [mx]. *)
Definition real_attr (round : Q -> Q) (mx : Q) (nm : str) (dflt : Q) (x : xnode) (v : Q) : Prop :=
  (x_attr nm x = None /\ v = dflt)
  \/ exists s (neg : bool) q, x_attr nm x = Some s /\ real_text neg s q /\ (round q <= mx)%Q
                     /\ (v == if neg then - round q else round q)%Q.
Definition float_attr := real_attr round32 max32.
Definition double_attr := real_attr round64 max64.

Definition array_length (x : xnode) (n : nat) : Prop := size_attr (lit "ArrayLength") 0 x (Z.of_nat n).

(** ** Declarations *)

(** An adaptation is read without fault: denominator and logarithm base meaningful. *)
Definition adaptation_ok (x : xnode) : Prop :=
  (exists off, int_attr true 4 (lit "Offset") 0 x off) /\ x_elems x = []
  /\ (exists num, double_attr (lit "SlopeNumerator") 1 x num)
  /\ (exists den, double_attr (lit "SlopeDenominator") 1 x den /\ ~ den == 0)%Q
  /\ (x_type x = lit "LinearAdaptation"
      \/ (x_type x = lit "LogarithmicAdaptation"
          /\ (x_attr (lit "LogarithmBase") x = None
              \/ exists base, double_attr (lit "LogarithmBase") 0 x base /\ 0 < base /\ ~ base == 1)%Q
          /\ exists fl, double_attr (lit "FloorValue") 0 x fl)).

(** A pair of an enumeration. *)
Definition pair_declared (x : xnode) (p : str * Z) : Prop :=
  x_type x = lit "ValuePair" /\ x_elems x = [] /\ fst p = x_attr0 (lit "Literal") x
  /\ int_attr true 4 (lit "Numerical") 0 x (snd p).

(** The type of a parameter. *)
Inductive type_declared (x : xnode) : ptype -> Prop :=
| td_bool : x_type x = lit "BooleanParameter" -> x_elems x = [] -> type_declared x PBool
| td_int : forall sg bytes lo hi, x_type x = lit "IntegerParameter" -> Forall adaptation_ok (x_elems x) ->
    bytes = 1%nat \/ bytes = 2%nat \/ bytes = 4%nat -> size_attr (lit "Size") 32 x (8 * Z.of_nat bytes) ->
    bool_attr (lit "Signed") false x sg ->
    int_attr sg bytes (lit "Min") (width_lo sg bytes) x lo -> int_attr sg bytes (lit "Max") (width_hi sg bytes) x hi ->
    lo <= hi -> type_declared x (PInt sg bytes lo hi)
| td_enum : forall bytes ps, x_type x = lit "EnumParameter" -> x_attr (lit "Size") x <> None ->
    size_attr (lit "Size") 0 x (8 * Z.of_nat bytes) -> Forall2 pair_declared (x_elems x) ps -> type_declared x (PEnum bytes ps)
| td_fix : forall bytes n m, x_type x = lit "FixedPointParameter" -> x_elems x = [] ->
    size_attr (lit "Size") 0 x (8 * Z.of_nat bytes) -> word_attr (lit "Integral") 0 x (Z.of_nat n) ->
    word_attr (lit "Fractional") 0 x (Z.of_nat m) -> (n + m + 1 <= 8 * bytes)%nat -> type_declared x (PFix bytes n m)
| td_float : forall lo hi, x_type x = lit "FloatingPointParameter" -> x_elems x = [] -> size_attr (lit "Size") 32 x 32 ->
    float_attr (lit "Min") (- max32) x lo -> float_attr (lit "Max") max32 x hi -> (lo <= hi)%Q -> type_declared x (PFloat lo hi).

(** A bit field of a block of [block] bytes. *)
Definition bit_declared (block : nat) (x : xnode) (nb : str * bittype) : Prop :=
  let t := snd nb in
  x_type x = lit "BitParameter" /\ x_elems x = [] /\ fst nb = x_name x /\ bt_block t = block
  /\ size_attr (lit "Pos") 0 x (bt_pos t) /\ size_attr (lit "Size") 0 x (bt_size t)
  /\ 1 <= bt_size t /\ bt_pos t + bt_size t <= 8 * Z.of_nat block
  /\ size_attr (lit "Max") (2 ^ bt_size t - 1) x (bt_max t) /\ bt_max t <= 2 ^ bt_size t - 1
  /\ exists n, array_length x n.

Definition shape (t : ptype) (len : nat) (k : ekind) : Prop :=
  (len = 0%nat /\ k = KdParam t) \/ (len <> 0%nat /\ k = KdArray t len).

(** [declares x t]: the element [x] of a structure file declares the type element [t]. *)
Inductive declares : xnode -> tel -> Prop :=
| dc_param : forall x t len k, type_declared x t -> array_length x len -> shape t len k ->
    declares x (TLeaf (x_name x) k (x_attr0 (lit "Mapping") x))
| dc_string : forall x n len, x_type x = lit "StringParameter" -> x_elems x = [] -> array_length x len ->
    size_attr (lit "MaxLength") 0 x (Z.of_nat n) -> declares x (TLeaf (x_name x) (KdString n) (x_attr0 (lit "Mapping") x))
| dc_bits : forall x bytes len bits, x_type x = lit "BitParameterBlock" -> array_length x len ->
    size_attr (lit "Size") 0 x (8 * Z.of_nat bytes) -> Forall2 (bit_declared bytes) (x_elems x) bits ->
    declares x (TBits (x_name x) bytes (x_attr0 (lit "Mapping") x) bits)
| dc_block : forall x len cs, x_type x = lit "ParameterBlock" -> array_length x len -> Forall2 declares (x_elems x) cs ->
    declares x (TBlock (x_name x) (x_attr0 (lit "Mapping") x) len cs)
| dc_comp : forall x len, x_type x = lit "Component" -> array_length x len -> x_elems x = [] ->
    declares x (TComp (x_name x) (x_attr0 (lit "Mapping") x) len (x_attr0 (lit "Type") x)).

(** The same type element: equal, the bounds of floating point parameters being equal as numbers. *)
Definition same_ptype (t t' : ptype) : Prop :=
  match t, t' with PFloat a b, PFloat a' b' => (a == a' /\ b == b')%Q | _, _ => t = t' end.
Definition same_kind (k k' : ekind) : Prop :=
  match k, k' with
  | KdParam t, KdParam t' => same_ptype t t'
  | KdArray t n, KdArray t' n' => same_ptype t t' /\ n = n'
  | _, _ => k = k'
  end.
Inductive same_tel : tel -> tel -> Prop :=
| se_leaf : forall n k k' m, same_kind k k' -> same_tel (TLeaf n k m) (TLeaf n k' m)
| se_bits : forall n b m bits, same_tel (TBits n b m bits) (TBits n b m bits)
| se_block : forall n m len cs cs', Forall2 same_tel cs cs' -> same_tel (TBlock n m len cs) (TBlock n m len cs')
| se_comp : forall n m len ty, same_tel (TComp n m len ty) (TComp n m len ty).

(** A component type. *)
Definition type_of (x : xnode) (t : ctype) : Prop :=
  x_type x = lit "ComponentType" /\ ct_name t = x_name x /\ ct_mapping t = x_attr0 (lit "Mapping") x
  /\ ct_extends t = x_attr (lit "Extends") x /\ (exists n, array_length x n) /\ Forall2 declares (x_elems x) (ct_children t).

(** The component types of a library, in the order of the file, at any depth of nested libraries and type sets. *)
Inductive library_of : list xnode -> list xnode -> Prop :=
| lb_nil : library_of [] []
| lb_type : forall x xs ts, x_type x = lit "ComponentType" -> library_of xs ts -> library_of (x :: xs) (x :: ts)
| lb_set : forall x xs us ts, x_type x = lit "ComponentLibrary" \/ x_type x = lit "ComponentTypeSet" ->
    library_of (x_elems x) us -> library_of xs ts -> library_of (x :: xs) (us ++ ts).

(** ** The schemas *)

(** [inside x y]: [y] is [x] or an element below. *)
Inductive inside : xnode -> xnode -> Prop :=
| ins_self : forall x, inside x x
| ins_child : forall x c y, In c (x_elems x) -> inside c y -> inside x y.

Definition attr_in (nm : str) (x : xnode) (P : Z -> Prop) : Prop :=
  forall s v, x_attr nm x = Some s -> int_text s v -> P v.

(** XML 1.0 has no form feed.  Parameter.xsd: the sizes (SizeType, SizeType64) and the bounds of Pos and Size of a bit parameter.
    The number of bits of a fixed point parameter, which the schema does not bound, is below 2^32. *)
Record conforms1 (x : xnode) : Prop := {
  cf_chars : forall nm s, x_attr nm x = Some s -> ~ In "012"%char s;
  cf_enum : x_type x = lit "EnumParameter" -> attr_in (lit "Size") x (fun v => v = 8 \/ v = 16 \/ v = 32);
  cf_fix : x_type x = lit "FixedPointParameter" -> attr_in (lit "Size") x (fun v => v = 8 \/ v = 16 \/ v = 32);
  cf_fix_bits : x_type x = lit "FixedPointParameter" -> forall n m, word_attr (lit "Integral") 0 x n -> word_attr (lit "Fractional") 0 x m -> n + m + 1 < 2 ^ 32;
  cf_block : x_type x = lit "BitParameterBlock" -> attr_in (lit "Size") x (fun v => v = 8 \/ v = 16 \/ v = 32 \/ v = 64);
  cf_pos : x_type x = lit "BitParameter" -> attr_in (lit "Pos") x (fun v => 0 <= v <= 63);
  cf_size : x_type x = lit "BitParameter" -> x_attr (lit "Size") x <> None /\ attr_in (lit "Size") x (fun v => 1 <= v <= 64)
}.
Definition conforms (x : xnode) : Prop := forall y, inside x y -> conforms1 y.

(** Elements allowed in a block, a component type or an instance definition (Parameter.xsd, ParameterBlockGroup). *)
Definition block_group : list str :=
  map lit ["BooleanParameter"; "IntegerParameter"; "EnumParameter"; "FixedPointParameter"; "FloatingPointParameter";
           "BitParameterBlock"; "StringParameter"; "Component"; "ParameterBlock"]%string.

(** The elements allowed in an element. *)
Definition allowed_in (type : str) : list str :=
  if str_eqb type (lit "IntegerParameter") then map lit ["LinearAdaptation"; "LogarithmicAdaptation"]%string
  else if str_eqb type (lit "EnumParameter") then [lit "ValuePair"]
  else if str_eqb type (lit "BitParameterBlock") then [lit "BitParameter"]
  else if str_eqb type (lit "ParameterBlock") || str_eqb type (lit "ComponentType") || str_eqb type (lit "InstanceDefinition") then block_group
  else if str_eqb type (lit "ComponentLibrary") || str_eqb type (lit "ComponentTypeSet")
       then map lit ["ComponentLibrary"; "ComponentTypeSet"; "ComponentType"]%string
  else if str_eqb type (lit "SystemClass") then [lit "Subsystem"]
  else if str_eqb type (lit "Subsystem") then map lit ["ComponentLibrary"; "InstanceDefinition"]%string
  else [].

(** Every element is allowed where it is; a subsystem has a library, then an instance definition. *)
Definition nested (x : xnode) : Prop :=
  forall y, inside x y -> (forall c, In c (x_elems y) -> In (x_type c) (allowed_in (x_type y)))
    /\ (x_type y = lit "Subsystem" -> map x_type (x_elems y) = map lit ["ComponentLibrary"; "InstanceDefinition"]%string).

(** The fields of every bit parameter block are apart: they share no bit. *)
Definition bits_apart (x : xnode) : Prop :=
  forall y i j c d pc sc pd sd, inside x y -> x_type y = lit "BitParameterBlock" -> i <> j ->
    nth_error (x_elems y) i = Some c -> nth_error (x_elems y) j = Some d ->
    size_attr (lit "Pos") 0 c pc -> size_attr (lit "Size") 0 c sc -> size_attr (lit "Pos") 0 d pd -> size_attr (lit "Size") 0 d sd ->
    pc + sc <= pd \/ pd + sd <= pc.

(** Names present and without a slash (xs:NMTOKEN); distinct in each block, component type and instance definition. *)
Definition names_declared (x : xnode) : Prop :=
  forall y, inside x y ->
    (In (x_type y) (lit "BitParameter" :: lit "Subsystem" :: block_group) -> x_name y <> [] /\ ~ In "/"%char (x_name y))
    /\ (In (x_type y) (map lit ["ParameterBlock"; "BitParameterBlock"; "ComponentType"; "InstanceDefinition"]%string) ->
        NoDup (map x_name (x_elems y))).

(** ** Systems *)

(** The children of the subsystem declared by [x]: [xs], created from the types [ts] of its library and from its instance
    definition [defs]. *)
Definition subsystem_declared (x : xnode) (ts : list ctype) (defs : list tel) (xs : list inst) : Prop :=
  exists xl xd us, x_type x = lit "Subsystem" /\ x_elems x = [xl; xd]
    /\ library_of (x_elems xl) us /\ Forall2 type_of us ts /\ Forall2 declares (x_elems xd) defs /\ Forall2 (creates ts) defs xs.

(** The names of the children of a component type, then of the type it extends: the first of that name in the library [us]. *)
Inductive type_names (us : list xnode) : xnode -> list str -> Prop :=
| tn_alone : forall x, x_attr (lit "Extends") x = None -> type_names us x (map x_name (x_elems x))
| tn_extends : forall x n j u ns, x_attr (lit "Extends") x = Some n -> nth_error us j = Some u -> x_name u = n ->
    (forall k v, (k < j)%nat -> nth_error us k = Some v -> x_name v <> n) -> type_names us u ns ->
    type_names us x (map x_name (x_elems x) ++ ns).

(** An extension brings no name that the type already has. *)
Definition extensions_apart (x : xnode) : Prop :=
  forall s xl us u ns, inside x s -> x_type s = lit "Subsystem" -> In xl (x_elems s) -> library_of (x_elems xl) us -> In u us -> type_names us u ns ->
    NoDup ns.

(** In the component types, no component is inside a block. *)
Definition flat_types (x : xnode) : Prop :=
  forall t y z, inside x t -> x_type t = lit "ComponentType" -> inside t y -> x_type y = lit "ParameterBlock" -> inside y z -> x_type z <> lit "Component".

(** No subsystem type has more than 32 context keys (the fixed size of the array of a mapping context, MappingContext.h). *)
Definition keys_limited (lib : str -> option plugin) : Prop := forall ty pl, lib ty = Some pl -> (List.length (pl_keys pl) <= 32)%nat.

(** Loading ends with a system or is refused: never undefined, never without end, never aborted. *)
Definition settled {A} (o : outcome A) : Prop := o = Err \/ exists a, o = Ok a.
