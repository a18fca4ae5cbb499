(** Vocabulary of the statements about the export and import of settings as XML. *)
From Coq Require Import List Arith ZArith QArith Qabs Bool Ascii String.
From Verif Require Import Base TextModel TextSpec TextProofs RealModel RealSpec ParamTypeModel ParamTypeSpec BlackboardModel BitModel ArrayModel ArraySpec TreeModel TreeSpec MemSpec
  SyncModel DomainModel DomainSpec MgrModel MgrSpec ApplySpec ValueSpec XmlModel.
Import ListNotations.
Local Open Scope nat_scope.

(** Two documents that differ only in the order of the attributes, in the text around child elements (indentation) and in how
    the text of an element without child element is cut in nodes. *)
Inductive like : xnode -> xnode -> Prop :=
| like_elem : forall t a a' c c',
    (forall nm, attr_find nm a = attr_find nm a') ->
    Forall2 like (filter is_elem c) (filter is_elem c') ->
    (filter is_elem c = [] -> x_text (XElem t a c) = x_text (XElem t a' c')) ->
    like (XElem t a c) (XElem t a' c').

(** The part of a document for the element at [r], following the child elements. *)
Fixpoint x_at (x : xnode) (r : list nat) : option xnode :=
  match r with
  | [] => Some x
  | i :: r' => match nth_error (x_elems x) i with Some c => x_at c r' | None => None end
  end.

(** The document has, child by child and in order, the types and names of the structure below [e]; "Component" is an old name
    of "ParameterBlock". *)
Definition tagged (e : elem) (x : xnode) : Prop :=
  (x_type x = xml_name (e_kind e) \/ (xml_name (e_kind e) = lit "ParameterBlock" /\ x_type x = lit "Component"))
  /\ x_name x = e_name e.
Inductive fits : elem -> xnode -> Prop :=
| fits_elem : forall nm k cs x, Forall2 (fun c xc => tagged c xc /\ fits c xc) cs (x_elems x) -> fits (Elem nm k cs) x.

(** The parameters of [e], by their position, in the order of the structure. *)
Fixpoint params (e : elem) : list (list nat * ekind) :=
  match e with
  | Elem _ k cs =>
      if is_param k then [([], k)]
      else (fix go (i : nat) (cs : list elem) : list (list nat * ekind) :=
              match cs with
              | [] => []
              | c :: r => map (fun pk => (i :: fst pk, snd pk)) (params c) ++ go (S i) r
              end) 0 cs
  end.

(** The value space in which the text of the last parameter of the list is read: the ValueSpace attribute of the last fixed or
    floating point parameter, [raw] when there is none. *)
Definition asks_raw (x : xnode) (r : list nat) : bool :=
  match x_at x r with Some xr => str_eqb (x_attr0 (lit "ValueSpace") xr) (lit "Raw") | None => false end.
Definition space_after (x : xnode) (raw : bool) (l : list (list nat * ekind)) : bool :=
  fold_left (fun raw pk => if spaced (snd pk) then asks_raw x (fst pk) else raw) l raw.

(** ** What can be exported and imported again *)

(** The text of the value [u] in the format [f] gives back [u], whether the value space of the reader is the one of [f] or
    [raw] when the type is an enumeration (the others: their own). *)
Definition word_restorable (f : fmt) (raw : bool) (t : ptype) (u : Z) : Prop :=
  word_accepted t u
  /\ match t with
     | PInt _ _ _ _ | PBool => True
     | PEnum b ps =>
         exists l n, In (l, n) ps /\ u = word_of b n /\ (width_lo true b <= n <= width_hi true b)%Z
           /\ if f_raw f then (if b =? 4 then f_hex f = false /\ (0 <= n)%Z else raw = true \/ (0 <= n)%Z)
              else NoDup (map fst ps) /\ NoDup (map snd ps) /\ forall l v, In (l, v) ps -> ~ In formfeed l /\ forall w, ~ int_text l w
     | PFix b n m =>
         f_raw f = true
         \/ exists k, q_range n m k /\ u = word_of b (k * 2 ^ (8 * Z.of_nat b - (Z.of_nat n + Z.of_nat m + 1)))
     | PFloat _ _ => if f_raw f then f_hex f = false else significant 6 (Qabs (f32_value u))
     end.

(** In an array the literals of an enumeration may contain no separator. *)
Definition cell_restorable (f : fmt) (t : ptype) : Prop :=
  match t with
  | PEnum _ ps => f_raw f = false -> forall l v, In (l, v) ps -> l <> [] /\ forall c, In c l -> ~ In c array_delimiters
  | _ => True
  end.

Definition restorable (f : fmt) (raw : bool) (k : ekind) (off : nat) (bb : blackboard) : Prop :=
  match k with
  | KdParam t => exists u, bb_read_int bb (pt_size t) off = Ok u /\ word_restorable f raw t u
  | KdArray t len =>
      cell_restorable f t
      /\ forall j, j < len -> exists u, bb_read_int bb (pt_size t) (off + j * pt_size t) = Ok u /\ word_restorable f raw t u
  | _ => value_ok k off bb
  end.

(** ** The manager *)

(** Nothing but the memory and the calls of the syncers differ. *)
Definition memory_only (m m' : mgr) : Prop := m' = with_trace (with_main m (mg_main m')) (mg_trace m').

(** With auto-sync, one call of each syncer that serves the element, with the memory after, the result telling whether they
    all succeeded; no call otherwise. *)
Definition pushed (y : system) (p : list nat) (m m' : mgr) (b : bool) : Prop :=
  if mg_autosync m then
    exists evs, mg_trace m' = mg_trace m ++ evs /\ NoDup (map ev_syncer evs) /\ (forall s, In s (map ev_syncer evs) <-> serves y s p)
      /\ Forall (fun v => ev_mem v = mg_main m') evs /\ (b = true <-> forall v, In v evs -> ev_ok v = true)
  else mg_trace m' = mg_trace m /\ b = true.

(** What the document asks for the parameter of [e] at [r]: the text, and the value space in which it is read. *)
Definition asked (e : elem) (x : xnode) (raw : bool) (r : list nat) (k : ekind) (raw' : bool) (s : str) : Prop :=
  exists pre post xr, params e = pre ++ (r, k) :: post /\ raw' = space_after x raw (pre ++ [(r, k)]) /\ x_at x r = Some xr /\ s = x_text xr.

(** The document is accepted for the element [e] at [p]: it is about this element, it has the shape of the structure, and the
    text for each parameter is one that the parameter accepts. *)
Definition about_element (e : elem) (x : xnode) : Prop :=
  x_type x = xml_name (e_kind e) /\ (e_name e = [] \/ x_name x = e_name e).
Definition doc_accepted (y : system) (p : list nat) (e : elem) (x : xnode) (m : mgr) : Prop :=
  about_element e x /\ fits e x
  /\ forall r k raw s, asked e x (mg_raw m) r k raw s ->
       exists bb, leaf_set k (Fmt raw (mg_hex m)) [] s (offset (sy_root y) (p ++ r)) 0 (mg_main m) = Ok (true, bb).
