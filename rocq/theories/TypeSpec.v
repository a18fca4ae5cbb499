(** Specification vocabulary for component libraries, independent of the functions of the model. *)
From Coq Require Import List Arith ZArith Bool Ascii String Lia Relations Permutation.
From Verif Require Import Base TextSpec TreeModel TreeSpec MapModel MapSpec TypeModel.
Import ListNotations.
Local Open Scope nat_scope.

(** A component of that type is somewhere in the description. *)
Inductive mentions : tel -> str -> Prop :=
| mn_comp : forall n m l ty, mentions (TComp n m l ty) ty
| mn_block : forall n m l cs c ty, In c cs -> mentions c ty -> mentions (TBlock n m l cs) ty.

(** [raw] is a Mapping attribute somewhere in the description. *)
Inductive mapping_in : tel -> str -> Prop :=
| mi_leaf : forall n k raw, mapping_in (TLeaf n k raw) raw
| mi_bits : forall n b raw bits, mapping_in (TBits n b raw bits) raw
| mi_block : forall n raw l cs, mapping_in (TBlock n raw l cs) raw
| mi_comp : forall n raw l ty, mapping_in (TComp n raw l ty) raw
| mi_child : forall n m l cs c raw, In c cs -> mapping_in c raw -> mapping_in (TBlock n m l cs) raw.

(** Absent, or with distinct keys. *)
Definition mapping_ok (raw : str) : Prop := raw = [] \/ exists kvs, written raw kvs /\ NoDup (map fst kvs).

(** The type designated by a name: the first of that name. *)
Definition first_named (ts : list ctype) (n : str) (i : nat) : Prop :=
  (exists t, nth_error ts i = Some t /\ ct_name t = n) /\ forall j u, j < i -> nth_error ts j = Some u -> ct_name u <> n.

(** The type number [i] uses the type number [j]: it extends it or has a component of that type, at any depth. *)
Definition uses (ts : list ctype) (i j : nat) : Prop :=
  exists t n, nth_error ts i = Some t /\ first_named ts n j
    /\ (ct_extends t = Some n \/ exists c, In c (ct_children t) /\ mentions c n).

(** The types needed to create the instances. *)
Definition needed (ts : list ctype) (defs : list tel) (j : nat) : Prop :=
  exists c n i, In c defs /\ mentions c n /\ first_named ts n i /\ clos_refl_trans nat (uses ts) i j.

(** What makes a library and an instance definition accepted. *)
Record structure_accepted (ts : list ctype) (defs : list tel) : Prop := {
  sa_mapping : forall t, In t ts -> mapping_ok (ct_mapping t) /\ forall c raw, In c (ct_children t) -> mapping_in c raw -> mapping_ok raw;
  sa_mapping_defs : forall c raw, In c defs -> mapping_in c raw -> mapping_ok raw;
  sa_before : forall i t c n, nth_error ts i = Some t -> In c (ct_children t) -> mentions c n -> exists j, j <= i /\ first_named ts n j;
  sa_not_self : forall i t n m l ty, nth_error ts i = Some t -> In (TComp n m l ty) (ct_children t) -> ~ first_named ts ty i;
  sa_extends : forall i t n, nth_error ts i = Some t -> ct_extends t = Some n -> exists j, j < i /\ first_named ts n j;
  sa_defs : forall c n, In c defs -> mentions c n -> exists j, first_named ts n j
}.

(** ** Names *)

Definition tel_name (t : tel) : str := match t with TLeaf n _ _ | TBits n _ _ _ | TBlock n _ _ _ | TComp n _ _ _ => n end.

(** [created_names ts i ns]: the names of the elements created by the type number [i]: its own children, then the ones of the type it
    extends. *)
Inductive created_names (ts : list ctype) : nat -> list str -> Prop :=
| cn_alone : forall i t, nth_error ts i = Some t -> ct_extends t = None -> created_names ts i (map tel_name (ct_children t))
| cn_extends : forall i t n j ns, nth_error ts i = Some t -> ct_extends t = Some n -> first_named ts n j -> created_names ts j ns ->
    created_names ts i (map tel_name (ct_children t) ++ ns).

(** Non-empty names without a slash, distinct in each block and bit block. *)
Inductive block_names_ok : tel -> Prop :=
| bn_leaf : forall n k m, n <> [] -> ~ In "/"%char n -> block_names_ok (TLeaf n k m)
| bn_bits : forall n b m bits, n <> [] -> ~ In "/"%char n -> NoDup (map fst bits) -> (forall x, In x bits -> fst x <> [] /\ ~ In "/"%char (fst x)) -> block_names_ok (TBits n b m bits)
| bn_block : forall n m l cs, n <> [] -> ~ In "/"%char n -> NoDup (map tel_name cs) -> (forall c, In c cs -> block_names_ok c) -> block_names_ok (TBlock n m l cs)
| bn_comp : forall n m l ty, n <> [] -> ~ In "/"%char n -> block_names_ok (TComp n m l ty).

(** Same for the whole description; the names brought by an extension are distinct from the others. *)
Definition names_accepted (ts : list ctype) (defs : list tel) : Prop :=
  NoDup (map tel_name defs) /\ (forall c, In c defs -> block_names_ok c)
  /\ (forall t c, In t ts -> In c (ct_children t) -> block_names_ok c)
  /\ forall i ns, created_names ts i ns -> NoDup ns.

(** ** What is created *)

(** The mapping data of a Mapping attribute. *)
Definition maps_of (raw : str) (m : list (list (str * str))) : Prop :=
  (raw = [] /\ m = []) \/ (raw <> [] /\ exists d kvs, m = [d] /\ written raw kvs /\ NoDup (map fst kvs) /\ Permutation d kvs).

(** The mapping data of a component type: its own, then the one of the type it extends. *)
Inductive type_data (ts : list ctype) : nat -> list (list (str * str)) -> Prop :=
| td_alone : forall i t m, nth_error ts i = Some t -> ct_extends t = None -> maps_of (ct_mapping t) m -> type_data ts i m
| td_extends : forall i t n j m ms, nth_error ts i = Some t -> ct_extends t = Some n -> first_named ts n j -> maps_of (ct_mapping t) m ->
    type_data ts j ms -> type_data ts i (m ++ ms).

(** The usual decimal writing of a number. *)
Definition decimal (s : str) (n : nat) : Prop :=
  exists ds, ds <> [] /\ Forall2 dec_digit s ds /\ positional 10 ds = Z.of_nat n /\ (n <> 0 -> hd_error s <> Some "0"%char).

(** [entries k m xs es]: as many copies as there are elements in [es], named by their decimal rank. *)
Definition entries (k : ekind) (m : list (list (str * str))) (xs : list inst) (len : nat) (es : list inst) : Prop :=
  List.length es = len /\ forall i e, nth_error es i = Some e -> exists s, decimal s i /\ e = Inst s k m xs.

(** The element created for a description, and the elements created for a component type. *)
Inductive creates (ts : list ctype) : tel -> inst -> Prop :=
| cr_leaf : forall n k raw m, maps_of raw m -> creates ts (TLeaf n k raw) (Inst n k m [])
| cr_bits : forall n b raw m bits, maps_of raw m ->
    creates ts (TBits n b raw bits) (Inst n (KdBitBlock b) m (map (fun nb => Inst (fst nb) (KdBit (snd nb)) [] []) bits))
| cr_block : forall n raw m cs xs, maps_of raw m -> Forall2 (creates ts) cs xs -> creates ts (TBlock n raw 0 cs) (Inst n KdBlock m xs)
| cr_blocks : forall n raw m len cs xs es, len <> 0 -> maps_of raw m -> Forall2 (creates ts) cs xs -> entries KdBlock m xs len es ->
    creates ts (TBlock n raw len cs) (Inst n KdBlock m es)
| cr_comp : forall n raw m ty i ms xs, maps_of raw m -> first_named ts ty i -> type_data ts i ms -> content ts i xs ->
    creates ts (TComp n raw 0 ty) (Inst n KdComponent (m ++ ms) xs)
| cr_comps : forall n raw m len ty i ms xs es, len <> 0 -> maps_of raw m -> first_named ts ty i -> type_data ts i ms -> content ts i xs ->
    entries KdComponent (m ++ ms) xs len es -> creates ts (TComp n raw len ty) (Inst n KdComponent (m ++ ms) es)
with content (ts : list ctype) : nat -> list inst -> Prop :=
| co_alone : forall i t xs, nth_error ts i = Some t -> ct_extends t = None -> Forall2 (creates ts) (ct_children t) xs -> content ts i xs
| co_extends : forall i t n j xs ys, nth_error ts i = Some t -> ct_extends t = Some n -> first_named ts n j ->
    Forall2 (creates ts) (ct_children t) xs -> content ts j ys -> content ts i (xs ++ ys).

Definition in_name (x : inst) : str := match x with Inst n _ _ _ => n end.

(** A subsystem once its instances are created; a system made of several. *)
Definition subsystem_elem (s : str * list inst) : elem := Elem (fst s) KdSubsystem (map forget (snd s)).
Definition system_elem (n : str) (subs : list (str * list inst)) : elem := Elem n KdSystem (map subsystem_elem subs).

(** An array of blocks or of components. *)
Definition is_array (t : tel) : Prop := match t with TBlock _ _ len _ | TComp _ _ len _ => len <> 0 | _ => False end.
