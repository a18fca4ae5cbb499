(** Vocabulary of the statements about configurable domains. *)
From Coq Require Import List Arith Bool Permutation Sorted.
From Verif Require Import Base RuleModel BlackboardModel TreeModel TreeSpec MemSpec SyncModel DomainModel.
Import ListNotations.
Local Open Scope nat_scope.

(** Elements listed once, none above another one. *)
Definition separate (l : list (list nat)) : Prop :=
  NoDup l /\ forall p q, In p l -> In q l -> p <> q -> unrelated p q.

(** An area of an existing element, with a memory of the size of its storage. *)
Definition area_ok (root : elem) (a : area) : Prop :=
  exists e, elem_at root (ar_pos a) = Some e /\ List.length (ar_bb a) = storage_size e.

(** The configuration holds settings for exactly the elements [l]. *)
Definition config_ok (root : elem) (l : list (list nat)) (c : config) : Prop :=
  Permutation (map ar_pos (cf_areas c)) l /\ Forall (area_ok root) (cf_areas c).

(** All the settings of a configuration are valid. *)
Definition config_valid (c : config) : Prop := Forall (fun a => ar_valid a = true) (cf_areas c).

(** A consistent domain. *)
Record domain_ok (y : system) (d : domain) : Prop := {
  dk_exist : forall p, In p (dm_elems d) -> exists e, elem_at (sy_root y) p = Some e;
  dk_separate : separate (dm_elems d);
  dk_configs : forall c, In c (dm_configs d) -> config_ok (sy_root y) (dm_elems d) c;
  dk_ids : NoDup (map cf_id (dm_configs d));
  dk_fresh : forall c, In c (dm_configs d) -> cf_id c < dm_fresh d;
  dk_last : forall i, dm_last d = Some i -> exists c, In c (dm_configs d) /\ cf_id c = i;
  dk_syncers : forall s, In s (dm_syncers d) <-> exists p, In p (dm_elems d) /\ In s (syncer_set y p);
  dk_sorted : StronglySorted lt (dm_syncers d)
}.

(** Consistent domains: the elements know exactly the domains they are associated to. *)
Record domains_ok (y : system) (s : domains) : Prop := {
  ds_domain : forall d, In d (ds_list s) -> domain_ok y d;
  ds_ids : NoDup (map dm_id (ds_list s));
  ds_fresh_ok : forall d, In d (ds_list s) -> dm_id d < ds_fresh s;
  ds_attached : forall p id, In (p, id) (ds_att s) <-> exists d, In d (ds_list s) /\ dm_id d = id /\ In p (dm_elems d);
  ds_att_once : NoDup (ds_att s)
}.

(** Every setting of every configuration of every domain is valid. *)
Definition all_valid (s : domains) : Prop :=
  forall d c, In d (ds_list s) -> In c (dm_configs d) -> config_valid c.

(** At most one syncer on the way from the root to a parameter. *)
Definition one_syncer (y : system) : Prop :=
  forall p q s t, sy_own y p = Some s -> sy_own y q = Some t -> above p q -> p = q.

(** The structures of the theorems: accepted at load time, and no overlapping bit fields. *)
Definition structure_ok (y : system) : Prop := elem_wf (sy_root y) = true /\ fields_apart (sy_root y).

(** The configuration [c] records for the element at [q] the value it has in [bb] (a memory starting at [base]). *)
Definition records (root : elem) (c : config) (q : pos) (base : nat) (bb : blackboard) : Prop :=
  exists a, In a (cf_areas c) /\ above (ar_pos a) q
    /\ same_setting root q (offset root (ar_pos a)) (ar_bb a) base bb.

(** [q] is one of the elements of the domain or below one. *)
Definition covers (d : domain) (q : pos) : Prop := exists p, In p (dm_elems d) /\ above p q.
