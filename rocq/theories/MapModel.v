(** Model of the mapping of a structure on the objects of a subsystem: mapping data, mapping context, amendment of the
    mapping values, creation of the subsystem objects (parameter/MappingData.cpp, MappingContext.cpp,
    FormattedSubsystemObject.cpp, Subsystem.cpp, VirtualSubsystem.cpp, InstanceConfigurableElement.cpp). *)
From Coq Require Import List Arith ZArith Bool Ascii String Lia.
From Verif Require Import Base TextModel CriterionModel TreeModel.
Import ListNotations.
Local Open Scope nat_scope.

(** ** Mapping data *)

(** MappingData.h:62 _keyToValueMap: the entries of the std::map, in key order. *)
Notation mapdata := (list (str * str)) (only parsing).

(** std::map::find (MappingData.cpp:74-85 getValue). *)
Fixpoint md_get (d : mapdata) (k : str) : option str :=
  match d with
  | [] => None
  | (k', v) :: r => if str_eqb k' k then Some v else md_get r k
  end.

(** std::map::operator[] on an absent key. *)
Fixpoint md_put (k v : str) (d : mapdata) : mapdata :=
  match d with
  | [] => [(k, v)]
  | (k', v') :: r => if str_ltb k k' then (k, v) :: d else (k', v') :: md_put k v r
  end.

(** MappingData.cpp:45-61: key and value of an item, separated by the first ':'. *)
Fixpoint md_item (s : str) : str * str :=
  match s with
  | [] => ([], [])
  | c :: r => if char_eqb c ":"%char then ([], r) else let '(k, v) := md_item r in (c :: k, v)
  end.

(** MappingData.cpp:91-101 addValue. *)
Definition md_add (d : mapdata) (k v : str) : option mapdata :=
  match md_get d k with Some _ => None | None => Some (md_put k v d) end.

Fixpoint md_add_all (items : list str) (d : mapdata) : option mapdata :=
  match items with
  | [] => Some d
  | it :: r => let '(k, v) := md_item it in
               match md_add d k v with Some d' => md_add_all r d' | None => None end
  end.

(** MappingData.cpp:35-72 init: [None] for a reported error. *)
Definition md_init (raw : str) : option mapdata := md_add_all (split raw (lit ",") true) [].

(** ** Mapping context *)

(** MappingContext.h mItems: key and value of each item, [None] for the null pointers.  Both pointers are set together
    (MappingContext.cpp:46-49). *)
Notation context := (list (option (str * str))) (only parsing).

(** MappingContext.cpp:77-80 iSet.  An index out of the vector is undefined. *)
Definition cx_set (cx : context) (i : nat) : outcome bool :=
  match nth_error cx i with
  | Some (Some _) => Ok true
  | Some None => Ok false
  | None => UB
  end.

(** MappingContext.cpp:38-52 setItem. *)
Definition cx_put (cx : context) (i : nat) (k v : str) : outcome (option context) :=
  do b <- cx_set cx i;
  if b then Ok None else Ok (Some (firstn i cx ++ Some (k, v) :: skipn (S i) cx)).

(** MappingContext.cpp:54-57 getItem(index): a null pointer is dereferenced when the item is not set. *)
Definition cx_get (cx : context) (i : nat) : outcome str :=
  match nth_error cx i with
  | Some (Some (_, v)) => Ok v
  | _ => UB
  end.

(** MappingContext.cpp:59-67 getItemAsInteger (size_t and unsigned long of 64 bits). *)
Definition cx_get_int (cx : context) (i : nat) : outcome Z :=
  match nth_error cx i with
  | Some (Some (_, v)) => Ok (strtoull0 v)
  | Some None => Ok 0%Z
  | None => UB
  end.

(** MappingContext.cpp:69-75 getItem(key): line 74 returns the key of the item found. *)
Fixpoint cx_find (cx : context) (key : str) : option str :=
  match cx with
  | [] => None
  | Some (k, _) :: r => if str_eqb key k then Some k else cx_find r key
  | None :: r => cx_find r key
  end.

(** ** Amendment *)

(** FormattedSubsystemObject.cpp:96-99: number designated by the character following a '%'.  The difference of
    (signed) characters is converted to size_t. *)
Definition amend_number (nb : nat) (c : ascii) : option nat :=
  if ((48 <? bval c) && (bval c <=? 48 + Z.of_nat nb) && (bval c <? 128))%Z%bool then Some (Z.to_nat (bval c - 48)) else None.

(** FormattedSubsystemObject.cpp:79-120 formatMappingValue.
    Simplification: the search of the first '%' and the recursion on the end of the text are one recursion. *)
Fixpoint amend (first nb : nat) (cx : context) (s : str) : outcome str :=
  match s with
  | [] => Ok []
  | c :: r =>
      if char_eqb c "%"%char then
        match r with
        | [] => Ok s
        | d :: r' =>
            match amend_number nb d with
            | None => Ok s
            | Some n =>
                do b <- cx_set cx (first + n - 1);
                if b then do e <- amend first nb cx r'; do v <- cx_get cx (first + n - 1); Ok (v ++ e)
                else Ok s
            end
        end
      else omap (cons c) (amend first nb cx r)
  end.

(** FormattedSubsystemObject.cpp:54-66 constructor: a value starting with a quote loses its first and last characters. *)
Definition formatted_value (first nb : nat) (cx : context) (v : str) : outcome str :=
  let v' := match v with
            | c :: r => if char_eqb c "'"%char && (2 <=? List.length v) then firstn (List.length v - 2) r else v
            | [] => v
            end in
  amend first nb cx v'.

(** ** Elements *)

(** An instance configurable element: the element of [TreeModel], with the mapping data found through its type element: its
    own, then the ones of its component type and of the types this one extends (TypeElement.cpp:64-75,
    ComponentInstance.cpp:60-76, ComponentType.cpp:52-68). *)
Inductive inst := Inst (name : str) (kind : ekind) (maps : list mapdata) (children : list inst).

Definition in_kind (e : inst) : ekind := match e with Inst _ k _ _ => k end.
Definition in_maps (e : inst) : list mapdata := match e with Inst _ _ m _ => m end.
Definition in_children (e : inst) : list inst := match e with Inst _ _ _ cs => cs end.

Fixpoint forget (e : inst) : elem := match e with Inst n k _ cs => Elem n k (map forget cs) end.

Fixpoint inst_at (e : inst) (p : pos) : option inst :=
  match p with
  | [] => Some e
  | i :: r => match nth_error (in_children e) i with Some c => inst_at c r | None => None end
  end.

(** getMappingData: TypeElement.cpp:64-71, ComponentInstance.cpp:60-66, ComponentType.cpp:52-57. *)
Fixpoint maps_get (ms : list mapdata) (k : str) : option str :=
  match ms with
  | [] => None
  | d :: r => match md_get d k with Some v => Some v | None => maps_get r k end
  end.

(** ** Subsystem *)

(** SubsystemObjectCreator.cpp: mapping key, ancestor mask, maximum size. *)
Record creator := Creator { cr_key : str; cr_mask : Z; cr_max : nat }.

(** What a subsystem class and its XML description provide. *)
Record subsystem := Subsys { sb_maps : list mapdata; sb_keys : list str; sb_creators : list creator; sb_virtual : bool }.

(** A subsystem object: its element (named by its position), the index of its creator, the mapping value and the context it
    was given. *)
Record object := Object { ob_pos : pos; ob_creator : nat; ob_value : str; ob_ctx : context }.

(** Subsystem.cpp:344-366 handleMappingContext, from the key number [i] on: the result and the context as it is left. *)
Fixpoint handle_context (keys : list str) (i : nat) (ms : list mapdata) (cx : context) : outcome (bool * context) :=
  match keys with
  | [] => Ok (true, cx)
  | k :: r =>
      match maps_get ms k with
      | None => handle_context r (S i) ms cx
      | Some v => do o <- cx_put cx i k v;
                  match o with Some cx' => handle_context r (S i) ms cx' | None => Ok (false, cx) end
      end
  end.

(** Subsystem.cpp:388-407: check of the required keys.  [1 << uiAncestorKey] is undefined from 32 on (31: the shift
    is defined and selects the bit 31 of the mask). *)
Fixpoint check_ancestors (n i : nat) (mask : Z) (cx : context) : outcome unit :=
  match n with
  | 0 => Ok tt
  | S n' => if 32 <=? i then UB
            else if Z.testbit mask (Z.of_nat i)
                 then do b <- cx_set cx i; if b then check_ancestors n' (S i) mask cx else Err
                 else check_ancestors n' (S i) mask cx
  end.

(** Subsystem.cpp:375-385: the first creator whose key the element has. *)
Fixpoint find_creator (crs : list creator) (j : nat) (ms : list mapdata) : option (nat * creator * str) :=
  match crs with
  | [] => None
  | c :: r => match maps_get ms (cr_key c) with Some v => Some (j, c, v) | None => find_creator r (S j) ms end
  end.

(** Subsystem.cpp:369-435 handleSubsystemObjectCreation. *)
Definition create_object (sb : subsystem) (e : inst) (cx : context) : outcome (option object) :=
  match find_creator (sb_creators sb) 0 (in_maps e) with
  | None => Ok None
  | Some (j, c, v) =>
      do _ <- check_ancestors (List.length (sb_keys sb)) 0 (cr_mask c) cx;
      if cr_max c <? footprint (forget e) then Err else Ok (Some (Object [] j v cx))
  end.

(** InstanceConfigurableElement.h getType, Subsystem.cpp:457-492: whether an object is mandatory; [None]: assert(0), false
    is returned. *)
Definition must_create (k : ekind) : option bool :=
  match k with
  | KdComponent | KdBlock => Some false
  | KdBitBlock _ | KdParam _ | KdArray _ _ | KdString _ => Some true
  | KdBit _ | KdSystem | KdSubsystem => None
  end.

(** Subsystem.cpp:438-493 mapBegin: the context pushed on the stack and the object created. *)
Definition map_begin (sb : subsystem) (e : inst) (cx : context) : outcome (context * option object) :=
  do r <- handle_context (sb_keys sb) 0 (in_maps e) cx;
  let '(ok, cx') := r in
  if ok then
    match must_create (in_kind e) with
    | None => Err
    | Some must =>
        do o <- create_object sb e cx';
        match o with
        | None => if must then Err else Ok (cx', None)
        | Some b => Ok (cx', Some b)
        end
    end
  else Err.

Definition ob_shift (i : nat) (o : object) : object := Object (i :: ob_pos o) (ob_creator o) (ob_value o) (ob_ctx o).

(** InstanceConfigurableElement.cpp:79-115 map: the objects created, in order.
    Simplification: the context stack is the parameter [cx]; the positions are relative to the element. *)
Fixpoint map_elem (sb : subsystem) (e : inst) (cx : context) : outcome (list object) :=
  match e with
  | Inst _ _ ms cs =>
      do st <- (match ms with [] => Ok (cx, None) | _ :: _ => map_begin sb e cx end);
      match snd st with
      | Some o => Ok [o]
      | None =>
          (fix go (cs : list inst) (i : nat) : outcome (list object) :=
             match cs with
             | [] => Ok []
             | c :: r => do a <- map_elem sb c (fst st); do b <- go r (S i); Ok (map (ob_shift i) a ++ b)
             end) cs 0
      end
  end.

Fixpoint map_children (sb : subsystem) (cs : list inst) (i : nat) (cx : context) : outcome (list object) :=
  match cs with
  | [] => Ok []
  | c :: r => do a <- map_elem sb c cx; do b <- map_children sb r (S i) cx; Ok (map (ob_shift i) a ++ b)
  end.

(** Subsystem.cpp:157-182 mapSubsystemElements: the result of handleMappingContext is ignored.
    VirtualSubsystem.cpp:60-75: no object is created under a virtual subsystem, and nothing fails. *)
Definition map_subsystem (sb : subsystem) (cs : list inst) : outcome (list object) :=
  if sb_virtual sb then Ok []
  else do r <- handle_context (sb_keys sb) 0 (sb_maps sb) (repeat None (List.length (sb_keys sb)));
       map_children sb cs 0 (snd r).

(** ** System *)

(** The subsystems of the system class (SystemClass.cpp): the description of each one and its children. *)
Fixpoint map_subsystems (subs : list (subsystem * list inst)) : outcome (list (list object)) :=
  match subs with
  | [] => Ok []
  | (sb, cs) :: r => do a <- map_subsystem sb cs; do b <- map_subsystems r; Ok (a :: b)
  end.

(** The elements holding a syncer: the ones of the subsystem objects (SubsystemObject.cpp:46-53), and the virtual
    subsystems (VirtualSubsystem.cpp:50-58). *)
Fixpoint holders (subs : list (subsystem * list inst)) (objs : list (list object)) (i : nat) : list pos :=
  match subs, objs with
  | (sb, _) :: r, os :: r' =>
      (if sb_virtual sb then [[i]] else map (fun o => i :: ob_pos o) os) ++ holders r r' (S i)
  | _, _ => []
  end.

(** The syncer of a position: its rank among the syncers. *)
Fixpoint rank (p : pos) (ps : list pos) (n : nat) : option nat :=
  match ps with
  | [] => None
  | q :: r => if list_eq_dec Nat.eq_dec q p then Some n else rank p r (S n)
  end.

(** The tree of the system. *)
Fixpoint sub_elems (names : list str) (subs : list (subsystem * list inst)) : list elem :=
  match names, subs with
  | n :: ns, (_, cs) :: r => Elem n KdSubsystem (map forget cs) :: sub_elems ns r
  | _, _ => []
  end.
