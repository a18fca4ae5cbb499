(** Specification vocabulary for the mapping, independent of the functions of the model. *)
From Coq Require Import List Arith ZArith Bool Ascii String Lia.
From Verif Require Import Base TextSpec TreeModel TreeSpec MapModel.
Import ListNotations.
Local Open Scope nat_scope.

(** ** Mapping strings *)

(** An item "key:value", cut at its first colon, or "key" alone for an empty value. *)
Definition item_of (it k v : str) : Prop :=
  ~ In ":"%char k /\ (it = k ++ ":"%char :: v \/ (it = k /\ v = [])).

(** The keys and values written in a mapping string: the non-empty pieces between commas. *)
Definition written (raw : str) (kvs : list (str * str)) : Prop :=
  exists items, runs (lit ",") raw items /\ Forall2 (fun it kv => item_of it (fst kv) (snd kv)) items kvs.

(** ** Keys given to an element *)

Definition distinct_keys (ds : list (list (str * str))) : Prop := forall d, In d ds -> NoDup (map fst d).

(** The value given to a key by the nearest mapping data that has it: the element itself before its component type. *)
Definition given (ds : list (list (str * str))) (k v : str) : Prop :=
  exists l d r, ds = l ++ d :: r /\ In (k, v) d /\ forall d' v', In d' l -> ~ In (k, v') d'.

(** Every mapping data of the tree has distinct keys. *)
Definition tree_keys (e : inst) : Prop := forall p x, inst_at e p = Some x -> distinct_keys (in_maps x).

(** ** Subsystem objects *)

(** The element has the key of some creator; the first such creator and the value. *)
Definition chosen (sb : subsystem) (x : inst) (j : nat) (c : creator) (v : str) : Prop :=
  nth_error (sb_creators sb) j = Some c /\ given (in_maps x) (cr_key c) v
  /\ forall i c' v', i < j -> nth_error (sb_creators sb) i = Some c' -> ~ given (in_maps x) (cr_key c') v'.

Definition keyed (sb : subsystem) (x : inst) : Prop := exists j c v, chosen sb x j c v.

(** The element at [p] and no element strictly above it has the key of a creator. *)
Definition reached (sb : subsystem) (e : inst) (p : pos) (x : inst) : Prop :=
  inst_at e p = Some x /\ forall q r y, p = q ++ r -> r <> [] -> inst_at e q = Some y -> ~ keyed sb y.

(** Value of the context key number [i] for the element at [p]: from the subsystem ([base]) or from an element on the way. *)
Definition collected (sb : subsystem) (base : nat -> str -> Prop) (e : inst) (p : pos) (i : nat) (v : str) : Prop :=
  base i v \/ exists q x k, above q p /\ inst_at e q = Some x /\ nth_error (sb_keys sb) i = Some k /\ given (in_maps x) k v.

(** Same, strictly above the element. *)
Definition collected_above (sb : subsystem) (base : nat -> str -> Prop) (e : inst) (p : pos) (i : nat) (v : str) : Prop :=
  base i v \/ exists q r x k, p = q ++ r /\ r <> [] /\ inst_at e q = Some x /\ nth_error (sb_keys sb) i = Some k
                              /\ given (in_maps x) k v.

Definition is_leaf_kind (k : ekind) : bool :=
  match k with KdBitBlock _ | KdParam _ | KdArray _ _ | KdString _ => true | _ => false end.
Definition is_group_kind (k : ekind) : bool := match k with KdComponent | KdBlock => true | _ => false end.

(** An element with mapping data is accepted: it does not give again a key already given above; when it has the key of a
    creator, the keys required by this creator were given and the element is not too large; a parameter or bit block
    must have the key of a creator. *)
Record accepted (sb : subsystem) (base : nat -> str -> Prop) (e : inst) (p : pos) (x : inst) : Prop := {
  ac_once : forall i k v w, nth_error (sb_keys sb) i = Some k -> given (in_maps x) k v -> ~ collected_above sb base e p i w;
  ac_kind : is_group_kind (in_kind x) = true \/ (is_leaf_kind (in_kind x) = true /\ keyed sb x);
  ac_object : forall j c v, chosen sb x j c v ->
    footprint (forget x) <= cr_max c
    /\ forall i, i < List.length (sb_keys sb) -> Z.testbit (cr_mask c) (Z.of_nat i) = true -> exists w, collected sb base e p i w
}.

Definition mappable (sb : subsystem) (base : nat -> str -> Prop) (e : inst) : Prop :=
  forall p x, reached sb e p x -> in_maps x <> [] -> accepted sb base e p x.

(** The context given to an object holds exactly the collected values. *)
Definition context_of (sb : subsystem) (base : nat -> str -> Prop) (e : inst) (p : pos) (cx : list (option (str * str))) : Prop :=
  List.length cx = List.length (sb_keys sb)
  /\ forall i k v, nth_error cx i = Some (Some (k, v)) <-> nth_error (sb_keys sb) i = Some k /\ collected sb base e p i v.

(** The objects created under an element: exactly one on each element reached that has the key of a creator; each object
    was made by the first creator whose key the element has, from the value of this key and from the values collected. *)
Definition objects_of (sb : subsystem) (base : nat -> str -> Prop) (e : inst) (objs : list object) : Prop :=
  (forall p, In p (map ob_pos objs) <-> exists x, reached sb e p x /\ keyed sb x)
  /\ NoDup (map ob_pos objs)
  /\ forall o, In o objs -> exists x c, inst_at e (ob_pos o) = Some x /\ chosen sb x (ob_creator o) c (ob_value o)
                                       /\ context_of sb base e (ob_pos o) (ob_ctx o).

(** The subsystem declares at most 32 context keys (the ancestor mask has 32 bits). *)
Definition few_keys (sb : subsystem) : Prop := List.length (sb_keys sb) <= 32.

(** The context keys given by the subsystem itself. *)
Definition sub_base (sb : subsystem) (i : nat) (v : str) : Prop :=
  exists k, nth_error (sb_keys sb) i = Some k /\ given (sb_maps sb) k v.

(** Subsystems whose mapping data was accepted. *)
Definition subs_ok (subs : list (subsystem * list inst)) : Prop :=
  forall sb cs, In (sb, cs) subs -> few_keys sb /\ distinct_keys (sb_maps sb) /\ forall c, In c cs -> tree_keys c.

(** ** Amendment *)

(** [d] is the digit of the amendment key number [n], of value [t]. *)
Definition designates (val : nat -> option str) (d : ascii) (t : str) : Prop :=
  exists n, 1 <= n <= 9 /\ bval d = (48 + Z.of_nat n)%Z /\ val n = Some t.

(** [w] is [s] with every designation replaced and everything else kept. *)
Inductive amended (val : nat -> option str) : str -> str -> Prop :=
| am_nil : amended val [] []
| am_subst : forall d t s w, designates val d t -> amended val s w -> amended val ("%"%char :: d :: s) (t ++ w)
| am_keep : forall c s w, (forall d t r, c = "%"%char -> s = d :: r -> ~ designates val d t) ->
    amended val s w -> amended val (c :: s) (c :: w).

(** Every '%' of the text starts a designation. *)
Inductive all_designate (val : nat -> option str) : str -> Prop :=
| ad_nil : all_designate val []
| ad_subst : forall d t s, designates val d t -> all_designate val s -> all_designate val ("%"%char :: d :: s)
| ad_char : forall c s, c <> "%"%char -> all_designate val s -> all_designate val (c :: s).

(** The text starts with a '%' that designates nothing. *)
Definition stray (val : nat -> option str) (s : str) : Prop :=
  exists r, s = "%"%char :: r /\ forall d t r', r = d :: r' -> ~ designates val d t.

(** Value of the amendment key number [n] in a context: the keys [first], [first + 1], ... of the context. *)
Definition amend_value (cx : list (option (str * str))) (first nb : nat) (n : nat) : option str :=
  if (1 <=? n) && (n <=? nb) then
    match nth_error cx (first + (n - 1)) with Some (Some (_, v)) => Some v | _ => None end
  else None.
