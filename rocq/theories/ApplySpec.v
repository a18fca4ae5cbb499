(** Vocabulary of the statements about the application of configurations. *)
From Coq Require Import List Arith Bool.
From Verif Require Import Base CriterionModel BlackboardModel TreeModel TreeSpec MemSpec SyncModel DomainModel DomainSpec MgrModel MgrSpec.
Import ListNotations.
Local Open Scope nat_scope.

(** The same domain, but for the configuration last applied. *)
Definition same_but_last (d d' : domain) : Prop :=
  dm_id d' = dm_id d /\ dm_name d' = dm_name d /\ dm_aware d' = dm_aware d /\ dm_elems d' = dm_elems d
  /\ dm_configs d' = dm_configs d /\ dm_syncers d' = dm_syncers d.

(** The domain [d] is given the settings of [c]: its first configuration whose rule holds, unless it is the one last applied;
    [force]: even then. *)
Definition switches (cs : list criterion) (force : bool) (d : domain) (c : config) : Prop :=
  first_match cs d c /\ (force = true \/ dm_last d <> Some (cf_id c)).

(** The order of the application: sequence unaware domains, then sequence aware ones. *)
Definition apply_order (l : list domain) : list domain :=
  filter (fun d => negb (dm_aware d)) l ++ filter dm_aware l.

(** The effect of the application on the values of the parameters, from a memory [a] to a memory [b], when the domains [l] are
    considered in this order: the last domain that covers the parameter and switches decides. *)
Definition settings_applied (root : elem) (cs : list criterion) (force : bool) (l : list domain) (a b : blackboard) : Prop :=
  forall q e, param_at root q e ->
    ((forall d c, In d l -> switches cs force d c -> ~ covers d q) -> same_setting root q 0 b 0 a)
    /\ (forall l1 d c l2, l = l1 ++ d :: l2 -> switches cs force d c -> covers d q ->
          (forall k kc, In k l2 -> switches cs force k kc -> ~ covers k q) -> records root c q 0 b).

(** The syncer of an element, of one of its ancestors or of one of its descendants. *)
Definition serves (y : system) (s : nat) (p : list nat) : Prop :=
  exists q, (above q p \/ above p q) /\ sy_own y q = Some s /\ elem_at (sy_root y) q <> None.

(** The configurations taken by the domains of a list, in this order. *)
Inductive taken_by (cs : list criterion) (force : bool) : list domain -> list config -> Prop :=
  | tb_nil : taken_by cs force [] []
  | tb_switch : forall d c l r, switches cs force d c -> taken_by cs force l r -> taken_by cs force (d :: l) (c :: r)
  | tb_skip : forall d l r, (forall c, ~ switches cs force d c) -> taken_by cs force l r -> taken_by cs force (d :: l) r.

(** The calls due to the synchronisation of an area: all its syncers, with its settings in the memory. *)
Definition area_synced (y : system) (a : area) (evs : list event) : Prop :=
  NoDup (map ev_syncer evs)
  /\ (forall s, In s (map ev_syncer evs) <-> serves y s (ar_pos a))
  /\ forall v, In v evs -> same_setting (sy_root y) (ar_pos a) 0 (ev_mem v) (offset (sy_root y) (ar_pos a)) (ar_bb a).
