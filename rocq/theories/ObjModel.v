(** Model of the objects of the subsystems: what an object can do to the memory (parameter/SubsystemObject.cpp), and the objects of the
    TEST subsystem (test/test-subsystem).  Simplifications: an object that throws ends the process (only the loop of the remote server
    catches); logs are not modelled; the writing of a file that could be opened succeeds. *)
From Coq Require Import List Arith ZArith Bool Ascii String.
From Verif Require Import Base TextModel ParamTypeModel BlackboardModel TreeModel SyncModel CriterionModel DomainModel MgrModel LoadModel.
Import ListNotations.
Local Open Scope nat_scope.

(** The code of an object: it ends, throws, does something undefined, reads or writes the next bytes of its memory.  What it does next
    may depend on what it read. *)
Inductive prog (A : Type) :=
| PEnd (a : A)
| PThrow
| PUndef
| PRead (n : nat) (k : list byte -> prog A)
| PWrite (bs : list byte) (k : prog A).
Arguments PEnd {A} a.
Arguments PThrow {A}.
Arguments PUndef {A}.
Arguments PRead {A} n k.
Arguments PWrite {A} bs k.

Fixpoint pbind {A B} (p : prog A) (f : A -> prog B) : prog B :=
  match p with
  | PEnd a => f a
  | PThrow => PThrow
  | PUndef => PUndef
  | PRead n k => PRead n (fun bs => pbind (k bs) f)
  | PWrite bs k => PWrite bs (pbind k f)
  end.

(** SubsystemObject.cpp:174-186 blackboardRead, blackboardWrite: [at_] is the offset of the element plus the number of bytes already read or
    written; ParameterBlackboard.cpp:88-96. *)
Fixpoint run {A} (p : prog A) (bb : blackboard) (at_ : nat) : outcome (A * list byte) :=
  match p with
  | PEnd a => Ok (a, bb)
  | PThrow => Abort
  | PUndef => UB
  | PRead n k => do bs <- bb_read bb n at_; run (k bs) bb (at_ + n)
  | PWrite bs k => do bb' <- bb_write bb bs at_; run k bb' (at_ + List.length bs)
  end.

(** An object: whether its subsystem is alive, the code to send and to receive. *)
Record object := Object { ob_alive : bool; ob_send : prog bool; ob_receive : prog bool }.

(** SubsystemObject.cpp:145-158: an object that implements nothing. *)
Definition plain_object (alive : bool) : object := Object alive (PEnd false) (PEnd true).

(** SubsystemObject.cpp:107-142 sync (no SIMULATION), 161-171 accessHW, 95-104 setDefaultValues. *)
Definition obj_sync (e : elem) (off : nat) (ob : object) (back : bool) (bb : blackboard) : outcome (bool * list byte) :=
  let failed (bb : blackboard) := if back then do b <- set_defaults e off 0 bb; Ok (false, b) else Ok (false, bb) in
  if ob_alive ob then
    do z <- run (if back then ob_receive ob else ob_send ob) bb off;
    if fst z then Ok z else failed (snd z)
  else failed bb.

(** ** The TEST subsystem *)

Inductive test_kind := TBinary | TString.

(** std::hex: lower case. *)
Definition lower_digit (c : ascii) : ascii := if ((65 <=? bval c) && (bval c <=? 70))%Z then byte_of (bval c + 32) else c.

(** TESTSubsystemBinary.cpp:50-64 toString (a copy of more than 4 bytes overflows), TESTSubsystemString.cpp:46-49. *)
Definition test_text (k : test_kind) (bs : list byte) : option str :=
  match k with
  | TBinary => if List.length bs <=? 4 then Some (lit "0x" ++ map lower_digit (print_base 16 (le_decode bs))) else None
  | TString => c_string bs
  end.

Definition newline : str := ["010"%char].

(** TESTSubsystemObject.cpp:97-124 sendToFile: the text written. *)
Fixpoint test_write (k : test_kind) (size n : nat) : prog str :=
  match n with
  | O => PEnd []
  | S n' => PRead size (fun bs => match test_text k bs with None => PUndef | Some t => pbind (test_write k size n') (fun r => PEnd (t ++ newline ++ r)) end)
  end.

(** operator>> of a string: the next word, empty when there is none; what is left. *)
Fixpoint word (s : str) : str * str :=
  match s with
  | [] => ([], [])
  | c :: r => if is_space c then ([], s) else let z := word r in (c :: fst z, snd z)
  end.
Definition next_word (s : str) : str * str := word (skip_ws s).

(** TESTSubsystemBinary.cpp:67-80 fromString, TESTSubsystemString.cpp:51-64: the [size] bytes, zero at first; it throws or is undefined. *)
Definition test_bytes (k : test_kind) (size : nat) (t : str) : prog (list byte) :=
  match k with
  | TBinary =>
      match convertTo t_uint32 t with
      | None => PThrow
      | Some v => if size <=? 4 then PEnd (le_encode size v) else PUndef
      end
  | TString => if size <? List.length t + 1 then PThrow else PEnd (t ++ repeat zero (size - List.length t))
  end.

(** TESTSubsystemObject.cpp:126-155 receiveFromFile. *)
Fixpoint test_read (k : test_kind) (size n : nat) (text : str) : prog unit :=
  match n with
  | O => PEnd tt
  | S n' => let z := next_word text in pbind (test_bytes k size (fst z)) (fun bs => PWrite bs (test_read k size n' (snd z)))
  end.

(** TESTSubsystem.cpp:61-65 isAlive. *)
Definition test_alive (file : option str) : bool := match file with Some t => str_eqb (fst (next_word t)) (lit "true") | None => false end.

(** TESTSubsystemObject.cpp:60-95 sendToHW, receiveFromHW: [opens]: the file can be written; [file]: its content if it can be read;
    [alive]: the content of the file isAlive. *)
Definition test_object (k : test_kind) (size n : nat) (alive : option str) (opens : bool) (file : option str) : object :=
  Object (test_alive alive)
         (if opens then pbind (test_write k size n) (fun _ => PEnd true) else PEnd false)
         (match file with None => PEnd true | Some t => pbind (test_read k size n t) (fun _ => PEnd true) end).

(** ** Starting with such objects *)

(** SyncerSet.cpp:55-79 sync, SubsystemObject.cpp:107-142: as [LoadModel.back_one], with the objects themselves; their result is ignored. *)
Definition back_object (y : system) (objs : nat -> object) (s : nat) (bb : blackboard) : outcome blackboard :=
  match find (fun x => fst x =? s) (owners (sy_own y) (sy_root y) []) with
  | None => Ok bb
  | Some (_, p) =>
      match elem_at (sy_root y) p with
      | None => Ok bb
      | Some e => omap snd (obj_sync e (offset (sy_root y) p) (objs s) true bb)
      end
  end.

(** HardwareBackSynchronizer.cpp:53-57, ParameterMgr.cpp:357-425. *)
Definition start_up_objects (y : system) (objs : nat -> object) (allowed : bool) (cs : list criterion) (s : domains) : outcome mgr :=
  do bb <- ofold (back_object y objs) (back_syncers y cs s) (initial_blackboard (sy_root y));
  load y allowed cs s bb.

(** ** A system whose objects are all of the TEST subsystem *)

(** TESTSubsystemObject.cpp:42-58 constructor: the size of a value and the number of values.  The type of the element is cast to
    CParameterType; the types of strings, blocks and bit blocks are not of that class, which is undefined. *)
Definition test_shape (e : elem) : option (nat * nat) :=
  match e_kind e with
  | KdParam t | KdArray t _ => Some (pt_size t, footprint e / pt_size t)
  | _ => None
  end.

(** What the mapping says: the kind of the object and the directory. *)
Record test_device := TestDevice { td_kind : test_kind; td_dir : str }.

(** TESTSubsystemObject.cpp:56: the file of the object. *)
Definition test_path (d : test_device) (e : elem) : str := td_dir d ++ lit "/" ++ e_name e.

(** The files, by path. *)
Definition files := str -> option str.
Definition files_set (f : files) (path text : str) : files := fun x => if str_eqb x path then Some text else f x.

(** The element of a syncer. *)
Definition owner_of (y : system) (s : nat) : option (pos * elem) :=
  match find (fun x => fst x =? s) (owners (sy_own y) (sy_root y) []) with
  | None => None
  | Some (_, p) => match elem_at (sy_root y) p with None => None | Some e => Some (p, e) end
  end.

(** TESTSubsystemObject.cpp:60-78 sendToHW: the files once the syncer has sent (the file can be opened). *)
Definition test_send_file (y : system) (dev : nat -> test_device) (bb : blackboard) (s : nat) (f : files) : outcome files :=
  match owner_of y s with
  | None => Ok f
  | Some (p, e) =>
      match test_shape e with
      | None => UB
      | Some (size, n) => do z <- run (test_write (td_kind (dev s)) size n) bb (offset (sy_root y) p); Ok (files_set f (test_path (dev s) e) (fst z))
      end
  end.

(** The objects, at the time they receive. *)
Definition test_objects (y : system) (dev : nat -> test_device) (alive : option str) (f : files) (s : nat) : object :=
  match owner_of y s with
  | None => plain_object false
  | Some (p, e) =>
      match test_shape e with
      | None => Object true PUndef PUndef
      | Some (size, n) => test_object (td_kind (dev s)) size n alive true (f (test_path (dev s) e))
      end
  end.
