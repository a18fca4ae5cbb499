(** Vocabulary of the statements about the parameter manager. *)
From Coq Require Import List Arith ZArith Bool.
From Verif Require Import Base ParamTypeModel BlackboardModel BitModel ArrayModel TreeModel TreeSpec MemSpec CriterionModel RuleModel RuleSpec SyncModel DomainModel
  DomainSpec MgrModel.
Import ListNotations.
Local Open Scope nat_scope.

(** A consistent manager: consistent domains, valid settings only, a main memory of the size of the structure. *)
Definition mgr_ok (y : system) (m : mgr) : Prop :=
  domains_ok y (mg_doms m) /\ all_valid (mg_doms m) /\ List.length (mg_main m) = footprint (sy_root y).

(** What the theorems assume of a loaded system: an accepted structure without overlapping bit fields, and at most one syncer
    on the way from the root to a parameter (the mapping of a structure ensures it, see MapModel). *)
Definition system_ok (y : system) : Prop := structure_ok y /\ one_syncer y.

(** A setting of the element at [q], as bits at their place in the main memory: only the bits of the element count. *)
Definition about (root : elem) (q : pos) (S : (nat -> bool) -> Prop) : Prop :=
  forall f g, (forall i, owns root q i -> f i = g i) -> S f -> S g.

(** The bits of an area, at their place in the main memory. *)
Definition area_bits (root : elem) (a : area) (i : nat) : bool := mbit (ar_bb a) (i - 8 * offset root (ar_pos a)).

(** The live setting of [q] and all its recorded settings satisfy [S]. *)
Definition everywhere (y : system) (q : pos) (S : (nat -> bool) -> Prop) (m : mgr) : Prop :=
  S (mbit (mg_main m))
  /\ forall d c a, In d (ds_list (mg_doms m)) -> In c (dm_configs d) -> In a (cf_areas c) -> above (ar_pos a) q ->
       S (area_bits (sy_root y) a).

(** The bits of a memory that starts at offset [base] of the structure, at their place in the main memory. *)
Definition bits_at (base : nat) (bb : blackboard) (i : nat) : bool := mbit bb (i - 8 * base).

(** The numbers given to the setters of a handle are of their C type. *)
Definition uval_ok (v : uval) : Prop := match v with UUInt n => (0 <= n < 2 ^ 32)%Z | UInt n => (- 2 ^ 31 <= n < 2 ^ 31)%Z | _ => True end.
Definition hval_ok (v : hval) : Prop := match v with HVal u => uval_ok u | HVals us => Forall uval_ok us | _ => True end.

(** A setting of the parameter [e] at [q] that every write of this parameter keeps, by text or through a handle. *)
Definition stable (y : system) (q : pos) (e : elem) (S : (nat -> bool) -> Prop) : Prop :=
  forall base bb ok bb', base <= offset (sy_root y) q -> offset (sy_root y) q - base + storage_size e <= List.length bb ->
    S (bits_at base bb) ->
    (exists f rest s, leaf_set (e_kind e) f rest s (offset (sy_root y) q) base bb = Ok (ok, bb'))
    \/ (exists v, handle_write (e_kind e) v (offset (sy_root y) q - base) bb = Ok (ok, bb') /\ hval_ok v /\ (hval_size v = 0 \/ hval_size v = array_length (e_kind e))) ->
    S (bits_at base bb').

(** The command writes the parameter at [q], by its path or by a handle. *)
Definition writes (y : system) (c : cmd) (q : pos) : Prop :=
  match c with
  | CSetParameter path _ | CSetConfigParameter _ _ path _ => exists rest, param_of (sy_root y) path = Some (q, rest)
  | CHandleSet p _ => p = q
  | _ => False
  end.

(** The command writes raw bytes over the parameter at [q]. *)
Definition writes_bytes (c : cmd) (q : pos) : Prop := match c with CHandleBytes p _ => above p q | _ => False end.

(** The numbers given by a command are of their C type. *)
Definition cmd_ok (c : cmd) : Prop := match c with CHandleSet _ v => hval_ok v | _ => True end.

(** ** Rules and names *)

(** The state of the criterion at position [i]. *)
Definition state_of (cs : list criterion) (i : nat) : Z := match nth_error cs i with Some k => cr_state k | None => 0%Z end.

(** The rule of the configuration holds in the given states of the criteria. *)
Definition matches (cs : list criterion) (c : config) : Prop := exists r, cf_rule c = Some r /\ holds (state_of cs) r.

(** [c] is the first configuration of [d] whose rule holds; there is none. *)
Definition first_match (cs : list criterion) (d : domain) (c : config) : Prop :=
  exists l1 l2, dm_configs d = l1 ++ c :: l2 /\ matches cs c /\ forall k, In k l1 -> ~ matches cs k.
Definition none_match (cs : list criterion) (d : domain) : Prop := forall c, In c (dm_configs d) -> ~ matches cs c.

(** The rules of all the configurations are about existing criteria. *)
Definition rules_ok (m : mgr) : Prop :=
  forall d c r, In d (ds_list (mg_doms m)) -> In c (dm_configs d) -> cf_rule c = Some r -> in_scope (mg_crits m) r.

(** The literals of a criterion have distinct names. *)
Definition crits_ok (cs : list criterion) : Prop := forall i k, nth_error cs i = Some k -> NoDup (map fst (cty_map (cr_type k))).

(** Named domains, with distinct names, and the same for the configurations of each. *)
Definition names_distinct (m : mgr) : Prop :=
  NoDup (map dm_name (ds_list (mg_doms m))) /\ ~ In [] (map dm_name (ds_list (mg_doms m)))
  /\ forall d, In d (ds_list (mg_doms m)) -> NoDup (map cf_name (dm_configs d)) /\ ~ In [] (map cf_name (dm_configs d)).

(** The command gives no empty name. *)
Definition gives_name (c : cmd) : Prop :=
  match c with CCreateDomain n | CRenameDomain _ n | CCreateConfig _ n | CRenameConfig _ _ n => n <> [] | _ => True end.

(** What the framework is loaded with, once the structure and the settings are read and the memory is synchronised from the
    hardware: domains on the structure (their recorded settings may be partly invalid), rules about existing criteria, and any
    content of the memory. *)
Definition loadable (y : system) (cs : list criterion) (s : domains) (bb : blackboard) : Prop :=
  crits_ok cs /\ domains_ok y s
  /\ (forall d c r, In d (ds_list s) -> In c (dm_configs d) -> cf_rule c = Some r -> in_scope cs r)
  /\ List.length bb = footprint (sy_root y).
Definition started (y : system) (m : mgr) : Prop :=
  exists allowed cs s bb, loadable y cs s bb /\ load y allowed cs s bb = Ok m.

(** What a history of commands can lead to, from a started framework. *)
Definition reachable (y : system) (m : mgr) : Prop :=
  exists m0 cmds bs, started y m0 /\ run y m0 cmds = Ok (bs, m).
