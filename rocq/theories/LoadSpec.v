(** Vocabulary of the statements about the start of the framework. *)
From Coq Require Import List Arith Bool.
From Verif Require Import Base BlackboardModel TreeModel TreeSpec CriterionModel SyncModel DomainModel DomainSpec MgrModel MgrSpec.
Import ListNotations.
Local Open Scope nat_scope.

(** The element at [q] has a usable configuration: in the first configuration whose rule holds, in some domain, valid settings
    are recorded for the element or for one of its ancestors. *)
Definition controlled (cs : list criterion) (s : domains) (q : list nat) : Prop :=
  exists d c a, In d (ds_list s) /\ first_match cs d c /\ In a (cf_areas c) /\ ar_valid a = true /\ above (ar_pos a) q.

(** Each syncer belongs to one element. *)
Definition own_apart (y : system) : Prop := forall p q s, sy_own y p = Some s -> sy_own y q = Some s -> p = q.

(** The hardware gives as many bytes as the element of the syncer holds. *)
Definition answers_ok (y : system) (answer : nat -> option (list byte)) : Prop :=
  forall o e x bytes, sy_own y o = Some x -> elem_at (sy_root y) o = Some e -> answer x = Some bytes -> List.length bytes = footprint e.
