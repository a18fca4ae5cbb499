(** Model of the client simulator (tools/clientSimulator): scenarios and the interactive menus.  A Python exception that nothing
    catches ends the program: [Err].  The commands are those given to the shell, as lists of words: names and values hold no character
    that the shell changes.  A Python set is a list without duplicates; the order in which Python lists it is not used by the statements. *)
From Coq Require Import List Arith ZArith Bool Ascii String.
From Verif Require Import Base.
Import ListNotations.
Local Open Scope nat_scope.

(** tools/clientSimulator/clientsimulator/criterion/CriterionClassFactory.py:39-84: a line of the criteria file gives a class: inclusive or not, name, allowed values. *)
Record sclass := SClass { sc_incl : bool; sc_name : str; sc_allowed : list str }.

(** tools/clientSimulator/clientsimulator/criterion/ExclusiveCriterion.py:41-47, InclusiveCriterion.py:41-47: the value of a criterion. *)
Inductive svalue := VOne (v : option str) | VMany (l : list str).

Record scrit := SCrit { cr_class : sclass; cr_value : svalue }.

Definition no_value : str := lit "0".
Definition str_in (x : str) (l : list str) : bool := existsb (str_eqb x) l.

(** str.split() of Python without argument, on blanks. *)
Definition is_blank (c : ascii) : bool := existsb (Ascii.eqb c) [" "%char; "009"%char; "010"%char; "011"%char; "012"%char; "013"%char].
Fixpoint py_words (s : str) (cur : str) : list str :=
  match s with
  | [] => match cur with [] => [] | _ => [cur] end
  | c :: r => if is_blank c then match cur with [] => py_words r [] | _ => cur :: py_words r [] end else py_words r (cur ++ [c])
  end.

(** set.add and set.remove. *)
Definition set_add (x : str) (l : list str) : list str := if str_in x l then l else l ++ [x].
Definition set_remove (x : str) (l : list str) : list str := filter (fun v => negb (str_eqb x v)) l.

(** tools/clientSimulator/clientsimulator/criterion/InclusiveCriterion.py:75-82: the values one by one; the first one that is not allowed raises. *)
Fixpoint add_values (allowed : list str) (ws : list str) (cur : list str) : outcome (list str) :=
  match ws with
  | [] => Ok cur
  | w :: r => if str_in w allowed && negb (str_eqb w no_value) then add_values allowed r (set_add w cur) else Err
  end.

(** tools/clientSimulator/clientsimulator/criterion/ExclusiveCriterion.py:49-56 and InclusiveCriterion.py:49-82: the setters of the current value. *)
Definition set_current (c : scrit) (text : str) : outcome scrit :=
  let k := cr_class c in
  match cr_value c with
  | VOne _ => if str_in text (sc_allowed k) || str_eqb text no_value then Ok (SCrit k (VOne (Some text))) else Err
  | VMany cur =>
      let ws := py_words text [] in
      if str_in no_value ws then Ok (SCrit k (VMany [no_value]))
      else do l <- add_values (sc_allowed k) ws (set_remove no_value cur); Ok (SCrit k (VMany l))
  end.

(** tools/clientSimulator/clientsimulator/criterion/InclusiveCriterion.py:84-92 removeValue.  Line 92 calls append, which a Python set does not have. *)
Definition remove_value (c : scrit) (v : str) : outcome scrit :=
  match cr_value c with
  | VOne _ => Err
  | VMany cur => if str_in v cur
                 then match set_remove v cur with
                      | [] => Err
                      | l => Ok (SCrit (cr_class c) (VMany l))
                      end
                 else Err
  end.

(** A new object of the class. *)
Definition new_crit (k : sclass) : scrit := SCrit k (if sc_incl k then VMany [] else VOne None).

(** A JSON object, or the first of its keys that is given. *)
Definition dict := list (str * str).
Definition dict_get (n : str) (d : dict) : option str := option_map snd (find (fun x => str_eqb n (fst x)) d).

(** tools/clientSimulator/clientsimulator/testGenerator/TestVectorFactory.py:51-78 generateTestVector. *)
Fixpoint vector_of (ks : list sclass) (raw : dict) : outcome (list scrit) :=
  match ks with
  | [] => Ok []
  | k :: r => match dict_get (sc_name k) raw with
              | Some text => do c <- set_current (new_crit k) text; do l <- vector_of r raw; Ok (c :: l)
              | None => vector_of r raw
              end
  end.
Fixpoint default_vector (ks : list sclass) : outcome (list scrit) :=
  match ks with
  | [] => Ok []
  | k :: r => do c <- set_current (new_crit k) no_value; do l <- default_vector r; Ok (c :: l)
  end.
Definition test_vector (ks : list sclass) (raw : dict) : outcome (list scrit) :=
  match raw with [] => default_vector ks | _ => vector_of ks raw end.

(** The processes launched: remote-process localhost <port> setCriterionState <name> <values>, or applyConfigurations; a script. *)
Inductive launched := LSet (n : str) (values : list str) | LApply | LScript (n : str).

(** tools/clientSimulator/clientsimulator/testGenerator/TestLauncher.py:145-158 executeTestVector; a value [None] cannot be joined to the command: an exception. *)
Definition crit_args (c : scrit) : outcome (list str) :=
  match cr_value c with
  | VOne (Some v) => Ok [v]
  | VOne None => Err
  | VMany [] => Ok [[]]
  | VMany l => Ok l
  end.
Fixpoint execute_vector (l : list scrit) : outcome (list launched) :=
  match l with
  | [] => Ok [LApply]
  | c :: r => do a <- crit_args c; do x <- execute_vector r; Ok (LSet (sc_name (cr_class c)) a :: x)
  end.

(** ** Scenarios *)

(** An action: its type and its value, an object or a text. *)
Inductive avalue := ADict (d : dict) | AText (s : str).
Definition action := (str * avalue)%type.

Definition t_set : str := lit "setCriterion".
Definition t_script : str := lit "script".

(** dict.update: the values of [d2] replace those of [d]. *)
Definition dict_update (d d2 : dict) : dict :=
  filter (fun x => match dict_get (fst x) d2 with Some _ => false | None => true end) d ++ d2.

(** tools/clientSimulator/clientsimulator/scenario/Scenario.py:82-136 __parseScenarioActions. *)
Definition resolve (gathered : list (str * action)) (a : action) : outcome action :=
  let '(ty, v) := a in
  if str_eqb ty t_set || str_eqb ty t_script then Ok a
  else match find (fun x => str_eqb ty (fst x)) gathered with
       | None => Err
       | Some (_, (ty2, v2)) =>
           if str_eqb ty2 t_script then Err
           else match v, v2 with
                | ADict d, ADict d2 => Ok (ty2, ADict (dict_update d d2))
                | _, _ => Err
                end
       end.
Fixpoint resolve_all (gathered : list (str * action)) (l : list action) : outcome (list action) :=
  match l with
  | [] => Ok []
  | a :: r => do x <- resolve gathered a; do y <- resolve_all gathered r; Ok (x :: y)
  end.

(** tools/clientSimulator/clientsimulator/scenario/Scenario.py:164-174 play, TestLauncher.py:160-182 executeScript. *)
Definition play_one (ks : list sclass) (scripts : list str) (a : action) : outcome (list launched) :=
  match a with
  | (ty, ADict d) => if str_eqb ty t_set then do v <- test_vector ks d; execute_vector v else Err
  | (ty, AText s) => if str_eqb ty t_script then if str_in s scripts then Ok [LScript s] else Err else Err
  end.

(** What is launched, and whether the scenario goes to its end. *)
Fixpoint play (ks : list sclass) (scripts : list str) (l : list action) : list launched * bool :=
  match l with
  | [] => ([], true)
  | a :: r => match play_one ks scripts a with
              | Ok x => let '(y, b) := play ks scripts r in (x ++ y, b)
              | _ => ([], false)
              end
  end.
Definition scenario (ks : list sclass) (scripts : list str) (gathered : list (str * action)) (l : list action) : list launched * bool :=
  match resolve_all gathered l with Ok r => play ks scripts r | _ => ([], false) end.

(** ** Interactive mode *)

Inductive entry := ESet (v : str) | EUnset (v : str) | EDefault.

(** The operator in of Python on strings. *)
Fixpoint is_prefix (x s : str) : bool :=
  match x, s with
  | [], _ => true
  | a :: x', b :: s' => Ascii.eqb a b && is_prefix x' s'
  | _, [] => false
  end.
Fixpoint is_infix (x s : str) : bool := is_prefix x s || match s with [] => false | _ :: s' => is_infix x s' end.

(** tools/clientSimulator/clientsimulator/userInteraction/UserInteractor.py:134-171: the entries of the menu of a criterion.  [x in criterion.currentValue] looks for a text
    in a text when the criterion is exclusive. *)
Definition edit_menu (c : scrit) : outcome (list entry) :=
  let others now := map ESet (filter (fun x => negb (now x) && negb (str_eqb x no_value)) (sc_allowed (cr_class c))) in
  match cr_value c with
  | VOne None => Err
  | VOne (Some v) => Ok (others (fun x => is_infix x v) ++ [EDefault])
  | VMany l => Ok (others (fun x => str_in x l) ++ map EUnset l)
  end.

(** tools/clientSimulator/clientsimulator/userInteraction/UserInteractor.py:67-87 getMenu: what the number typed does among [n] entries: one of them, leave, or a message. *)
Inductive choice := ChEntry (k : nat) | ChLeave | ChMessage.
Definition choose (n : nat) (typed : option Z) : outcome choice :=
  match typed with
  | None => Ok ChMessage
  | Some z => if (z =? Z.of_nat n)%Z then Ok ChLeave
              else if (z <? 0)%Z then Ok ChMessage
              else if (z <? Z.of_nat n)%Z then Ok (ChEntry (Z.to_nat z))
              else Err
  end.

(** tools/clientSimulator/clientsimulator/userInteraction/UserInteractor.py:128-132 and 164-169: the effect of an entry. *)
Definition do_entry (c : scrit) (e : entry) : outcome scrit :=
  match e with
  | ESet v => set_current c v
  | EUnset v => remove_value c v
  | EDefault => set_current c no_value
  end.
