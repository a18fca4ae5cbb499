(** Vocabulary of the statements about the C interface. *)
From Coq Require Import List Arith ZArith Bool Ascii String.
From Verif Require Import Base CriterionModel TreeModel TreeSpec SyncModel DomainModel MgrModel MgrSpec ValueSpec LoadModel LoadSpec CapiModel.
Import ListNotations.
Local Open Scope nat_scope.

(** ** Criteria (bindings/c/ParameterFramework.h:117-138, 172-190) *)

(** The number of the value at index [i]: the index, or the bit of that index. *)
Definition number (incl : bool) (i : nat) : Z := if incl then (2 ^ Z.of_nat i)%Z else Z.of_nat i.

(** A criterion that can be made: a name and values; distinct values; for an inclusive one, at most 31 and not the text "none",
    which stands for no value. *)
Definition makeable (c : c_criterion) : Prop :=
  exists n vs, cc_name c = Some n /\ cc_values c = Some vs /\ NoDup vs
    /\ (cc_incl c = true -> List.length vs <= 31 /\ ~ In (lit "none") vs).

(** Criteria that can be made together: their names differ. *)
Definition all_makeable (cs : list c_criterion) : Prop := Forall makeable cs /\ NoDup (map cc_name cs).

(** At most INT_MAX values each, as the interface demands. *)
Definition countable (cs : list c_criterion) : Prop :=
  forall c vs, In c cs -> cc_values c = Some vs -> (Z.of_nat (List.length vs) <= 2 ^ 31 - 1)%Z.

(** [k] is the criterion described by [c]: its name, its kind, exactly the given values with their numbers. *)
Definition described (c : c_criterion) (k : criterion) : Prop :=
  cc_name c = Some (cr_name k) /\ cty_incl (cr_type k) = cc_incl c
  /\ exists vs, cc_values c = Some vs
     /\ forall l v, cty_atomic (cr_type k) l = Some v
          <-> (exists i, nth_error vs i = Some l /\ v = number (cc_incl c) i) \/ (cc_incl c = true /\ l = lit "none" /\ v = 0%Z).

(** ** Files *)

(** Good files for the criteria of a client: whatever these criteria are called with, a structure [y] that meets the conditions
    of the other theorems, domains on it with rules about these criteria, hardware that gives what is asked; the remote server
    starts. *)
Definition good_files (y : system) (cs : list c_criterion) (f : files) : Prop :=
  system_ok y
  /\ forall ks, Forall2 described cs ks -> crits_ok ks ->
       exists given allowed s, f ks = LDone y given allowed s true /\ answers_ok y given
         /\ loadable y ks s (initial_blackboard (sy_root y)).

(** ** Sessions *)

(** The handle of a started framework on the system [y], in the state [m]. *)
Definition running (y : system) (m : mgr) (h : chandle) : Prop := ch_pfw h = Some (Inst y m true).

(** What a client can do with its handle: parameter handles are handles of parameters, numbers are 32-bit integers; what the
    remote server receives is no raw bytes and no rule (the text of a rule may terminate the process, see C59). *)
Definition allowed_call (y : system) (k : ccall) : Prop :=
  match k with
  | KGetInt p | KGetString p | KSetString p _ => exists e, param_at (sy_root y) p e
  | KSetInt p v => (exists e, param_at (sy_root y) p e) /\ (- 2 ^ 31 <= v < 2 ^ 31)%Z
  | KTune c => forall d n t, c <> CSetRule d n t
  | _ => True
  end.

(** The call sets the criterion [n]. *)
Definition sets_criterion (n : str) (k : ccall) : Prop := match k with KSetCriterion n' _ => n' = n | _ => False end.

(** Any handle a client can come to hold. *)
Definition obtainable (h : chandle) : Prop := exists ks answers, calls c_new ks = Ok (answers, h).

(** The call changes no parameter: it is not a set, an application, a start or a command of the remote server. *)
Definition reads (k : ccall) : Prop :=
  match k with KSetCriterion _ _ | KGetCriterion _ | KBind _ | KGetInt _ | KGetString _ => True | _ => False end.
