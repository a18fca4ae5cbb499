(** Vocabulary of the statements about criteria that change during an application of configurations. *)
From Coq Require Import List Arith ZArith Bool.
From Verif Require Import Base CriterionModel RuleModel RuleSpec BlackboardModel TreeModel TreeSpec MemSpec SyncModel DomainModel DomainSpec
  MgrModel MgrSpec ApplySpec RaceModel.
Import ListNotations.
Local Open Scope nat_scope.

(** From [cs], calls of setCriterionState give [cs']. *)
Inductive changed (cs : list criterion) : list criterion -> Prop :=
  | ch_none : changed cs cs
  | ch_set : forall cs' i v, changed cs cs' -> changed cs (crits_set cs' i v).

(** From [cs], the other threads bring the criteria through the states [st 0], [st 1], ... *)
Definition course (cs : list criterion) (st : moments) : Prop := changed cs (st 0) /\ forall t, changed (st t) (st (S t)).

(** The criteria are in the same state [cs] from the moment [a] to the moment [b], excluded. *)
Definition steady (st : moments) (cs : list criterion) (a b : nat) : Prop := forall t, a <= t < b -> st t = cs.

(** Only the criterion at position [k] changes. *)
Definition only_changes (k : nat) (st : moments) : Prop := forall i t u, i <> k -> nth_error (st t) i = nth_error (st u) i.

(** The number of tests of the criterion at position [k] in a rule. *)
Fixpoint tests_of (k : nat) (r : rule) : nat :=
  match r with
  | RCrit c _ _ => if c =? k then 1 else 0
  | RComp _ l => (fix sum (l : list rule) : nat := match l with [] => 0 | x :: l' => tests_of k x + sum l' end) l
  end.

(** No parameter belongs to two domains. *)
Definition apart (root : elem) (l : list domain) : Prop :=
  ForallOrdPairs (fun d k => forall q e, param_at root q e -> covers d q -> ~ covers k q) l.

(** The settings of the configuration last applied of the domain are in the memory. *)
Definition settled (root : elem) (d : domain) (main : blackboard) : Prop :=
  forall c q e, In c (dm_configs d) -> dm_last d = Some (cf_id c) -> param_at root q e -> covers d q -> records root c q 0 main.

Definition all_settled (y : system) (m : mgr) : Prop :=
  forall d, In d (ds_list (mg_doms m)) -> settled (sy_root y) d (mg_main m).

(** Changes of criteria and applications of configurations during which the criteria change. *)
Inductive disturbed (y : system) (m : mgr) : mgr -> Prop :=
  | dt_none : disturbed y m m
  | dt_criterion : forall m1 i v, disturbed y m m1 -> disturbed y m (with_crits m1 (crits_set (mg_crits m1) i v))
  | dt_apply : forall m1 m2 st need n, disturbed y m m1 -> course (mg_crits m1) st -> apply_during y st need m1 = Ok (m2, n) -> disturbed y m m2.

(** [d'] is the domain [d] after an application in the state [cs] of the criteria. *)
Definition judged_in (cs : list criterion) (d d' : domain) : Prop :=
  same_but_last d d' /\ (forall c, first_match cs d c -> dm_last d' = Some (cf_id c)) /\ (none_match cs d -> dm_last d' = dm_last d).
