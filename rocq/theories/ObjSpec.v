(** What the code of a subsystem object does, told without the main memory: it acts on a memory of its own. *)
From Coq Require Import List Arith ZArith Bool Ascii String.
From Verif Require Import Base TextModel TextSpec BlackboardModel ParamTypeModel TreeModel SyncModel ObjModel.
Import ListNotations.
Local Open Scope nat_scope.

(** [acts m i p a m']: on the memory [m], from its byte [i] on, the code [p] accesses the bytes one after the other, none past the end,
    ends with the result [a] and leaves the memory [m'].  A read gives the bytes that are there, a write replaces them. *)
Inductive acts {A : Type} : list byte -> nat -> prog A -> A -> list byte -> Prop :=
| acts_end : forall m i a, acts m i (PEnd a) a m
| acts_read : forall x bs z i k a m', List.length x = i ->
    acts (x ++ bs ++ z) (i + List.length bs) (k bs) a m' ->
    acts (x ++ bs ++ z) i (PRead (List.length bs) k) a m'
| acts_write : forall x old bs z i k a m', List.length x = i -> List.length old = List.length bs ->
    acts (x ++ bs ++ z) (i + List.length bs) k a m' ->
    acts (x ++ old ++ z) i (PWrite bs k) a m'.

(** Code that writes nothing. *)
Inductive reads_only {A : Type} : prog A -> Prop :=
| ro_end : forall a, reads_only (PEnd a)
| ro_throw : reads_only PThrow
| ro_undef : reads_only PUndef
| ro_read : forall n k, (forall bs, reads_only (k bs)) -> reads_only (PRead n k).

(** The object gives the bytes [bs] for its element, whatever the element held; or it fails, or cannot be reached, and writes nothing. *)
Definition answers (ob : object) (size : nat) (a : option (list byte)) : Prop :=
  match a with
  | Some bs => ob_alive ob = true /\ forall m, List.length m = size -> acts m 0 (ob_receive ob) true bs
  | None => ob_alive ob = false \/ forall m, List.length m = size -> acts m 0 (ob_receive ob) false m
  end.

(** ** The files of the TEST subsystem *)

(** A lower case hexadecimal digit. *)
Definition lower_hex (c : ascii) (d : Z) : Prop := dec_digit c d \/ (10 <= d <= 15 /\ bval c = 87 + d)%Z.

(** [binary_word bs t]: [t] is 0x and the lower case hexadecimal digits, without leading zero, of the little endian integer [bs]. *)
Definition binary_word (bs : list byte) (t : str) : Prop :=
  exists s ds, t = lit "0x" ++ s /\ Forall2 lower_hex s ds /\ ds <> [] /\ (hd 0%Z ds = 0%Z -> ds = [0%Z]) /\ positional 16 ds = le_decode bs.

(** [string_word bs t]: [t] is the C string at the beginning of [bs]. *)
Definition string_word (bs : list byte) (t : str) : Prop := exists z, bs = t ++ zero :: z /\ ~ In zero t.

Definition blank (c : ascii) : Prop := (9 <= bval c <= 13 \/ bval c = 32)%Z.

(** [in_words ws t]: the text [t] begins with the words [ws], separated by blanks; what follows them is not told. *)
Inductive in_words : list str -> str -> Prop :=
| iw_nil : forall t, in_words [] t
| iw_cons : forall g w ws r, Forall blank g -> w <> [] -> Forall (fun c => ~ blank c) w ->
    (r = [] \/ exists c r', r = c :: r' /\ blank c) -> in_words ws r -> in_words (w :: ws) (g ++ w ++ r).

(** A system of which every syncer is a Binary object of the TEST subsystem, on a parameter or an array, with a file of its own. *)
Definition binary_system (y : system) (dev : nat -> test_device) : Prop :=
  (forall o s e, sy_own y o = Some s -> elem_at (sy_root y) o = Some e ->
     td_kind (dev s) = TBinary /\ exists t, e_kind e = KdParam t \/ exists len, e_kind e = KdArray t len)
  /\ (forall o1 s1 e1 o2 s2 e2, sy_own y o1 = Some s1 -> elem_at (sy_root y) o1 = Some e1 -> sy_own y o2 = Some s2 -> elem_at (sy_root y) o2 = Some e2 ->
        td_dir (dev s1) ++ lit "/" ++ e_name e1 = td_dir (dev s2) ++ lit "/" ++ e_name e2 -> o1 = o2).
