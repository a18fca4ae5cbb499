(** Model of array and string parameters (parameter/ArrayParameter.cpp, parameter/StringParameter.cpp). *)
From Coq Require Import List Arith ZArith Bool Ascii String Lia.
From Verif Require Import Base TextModel RealModel ParamTypeModel BlackboardModel.
Import ListNotations.
Local Open Scope nat_scope.

(** ** Arrays.  [t]: type of the elements, [len]: array length. *)

(** ArrayParameter.cpp:49-52 getFootPrint. *)
Definition array_footprint (t : ptype) (len : nat) : nat := pt_size t * len.

(** ArrayParameter.cpp:255 delimiters of the values. *)
Definition array_delimiters : str := default_delimiters ++ lit ",".

(** ArrayParameter.cpp:274-287 (and 401-418 doSet): values written one after the other, up to the first one refused.
    Result: success, and the blackboard in any case. *)
Fixpoint array_set_list (t : ptype) (f : fmt) (vals : list str) (off : nat) (bb : blackboard)
  : outcome (bool * blackboard) :=
  match vals with
  | [] => Ok (true, bb)
  | v :: r =>
      match to_bb_str t f v with
      | Ok u => do bb' <- bb_write_int bb u (pt_size t) off; array_set_list t f r (off + pt_size t) bb'
      | Err => Ok (false, bb)
      | Abort => Abort
      | UB => UB
      end
  end.

(** ArrayParameter.cpp:251-288 setValues(string).  [off]: offset of the array in the blackboard. *)
Definition array_set_text (t : ptype) (len : nat) (f : fmt) (start off : nat) (s : str) (bb : blackboard)
  : outcome (bool * blackboard) :=
  let vals := split s array_delimiters true in
  if len <? List.length vals + start then Ok (false, bb)
  else array_set_list t f vals (off + start * pt_size t) bb.

(** ArrayParameter.cpp:301-317: texts of [n] consecutive elements. *)
Fixpoint array_get_list (t : ptype) (f : fmt) (n off : nat) (bb : blackboard) : outcome (list str) :=
  match n with
  | O => Ok []
  | S n' => do v <- param_get_str t f off bb;
            do r <- array_get_list t f n' (off + pt_size t) bb;
            Ok (v :: r)
  end.

(** ArrayParameter.cpp:291-320 getValues(string). *)
Definition array_get_text (t : ptype) (len : nat) (f : fmt) (off : nat) (bb : blackboard) : outcome str :=
  omap (join (lit " ")) (array_get_list t f len off bb).

(** ArrayParameter.cpp:203-248 getIndex on the remaining items of the path: [None] when no index is given.  The unread
    characters of the item are ignored (line 215); size_t has 64 bits. *)
Definition array_index (len : nat) (path : list str) : outcome (option nat) :=
  match path with
  | [] => Ok None
  | item :: more =>
      match stream_int 10 t_uint64 item with
      | None => Err
      | Some (v, _) => if (Z.of_nat len <=? v)%Z then Err
                       else match more with [] => Ok (Some (Z.to_nat v)) | _ => Err end
      end
  end.

(** ArrayParameter.cpp:72-118 accessValue, setting; without the synchronisation.  [off]: offset of the array,
    [base]: offset of the blackboard. *)
Definition array_access_set (t : ptype) (len : nat) (f : fmt) (path : list str) (s : str) (off base : nat)
           (bb : blackboard) : outcome (bool * blackboard) :=
  match array_index len path with
  | Ok i => array_set_text t len f (match i with Some i => i | None => 0%nat end) (off - base) s bb
  | Err => Ok (false, bb)
  | Abort => Abort
  | UB => UB
  end.

(** ArrayParameter.cpp:72-118 accessValue, getting.  The base offset is not subtracted for one element (line 112). *)
Definition array_access_get (t : ptype) (len : nat) (f : fmt) (path : list str) (off base : nat) (bb : blackboard)
  : outcome str :=
  do i <- array_index len path;
  match i with
  | None => array_get_text t len f (off - base) bb
  | Some i => param_get_str t f (off + i * pt_size t) bb
  end.

(** ArrayParameter.cpp:352-373 setValues(vector).  The base offset is not subtracted; the length was checked by the
    caller (debug assert on line 359). *)
Fixpoint array_set_vals (t : ptype) (f : fmt) (vals : list uval) (off : nat) (bb : blackboard)
  : outcome (bool * blackboard) :=
  match vals with
  | [] => Ok (true, bb)
  | v :: r =>
      match to_bb_val t f v with
      | Ok u => do bb' <- bb_write_int bb u (pt_size t) off; array_set_vals t f r (off + pt_size t) bb'
      | Err => Ok (false, bb)
      | Abort => Abort
      | UB => UB
      end
  end.

(** ArrayParameter.cpp:376-398 getValues(vector). *)
Fixpoint array_get_vals (t : ptype) (k : ukind) (n off : nat) (bb : blackboard) : outcome (list uval) :=
  match n with
  | O => Ok []
  | S n' => do v <- param_get_val t k off bb;
            do r <- array_get_vals t k n' (off + pt_size t) bb;
            Ok (v :: r)
  end.

(** ArrayParameter.cpp:178-200 setDefaultValues. *)
Fixpoint array_set_default (t : ptype) (n off : nat) (bb : blackboard) : outcome blackboard :=
  match n with
  | O => Ok bb
  | S n' => do bb' <- param_set_default t off bb; array_set_default t n' (off + pt_size t) bb'
  end.

(** ** Strings.  [max]: MaxLength. *)

(** StringParameter.cpp:55-58 getSize. *)
Definition string_size (max : nat) : nat := max + 1.

(** StringParameter.cpp:70-88 doSetValue. *)
Definition string_set (max : nat) (s : str) (off : nat) (bb : blackboard) : outcome blackboard :=
  if string_size max <=? List.length s then Err else bb_write_string bb s off.

(** StringParameter.cpp:90-94 doGetValue. *)
Definition string_get (off : nat) (bb : blackboard) : outcome str := bb_read_string bb off.

(** StringParameter.cpp:61-67 setDefaultValues. *)
Definition string_set_default (off : nat) (bb : blackboard) : outcome blackboard := bb_write_string bb [] off.
