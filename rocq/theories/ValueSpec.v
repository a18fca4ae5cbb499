(** Vocabulary of the statements about the values that parameters may hold. *)
From Coq Require Import List Arith ZArith QArith Bool.
From Verif Require Import Base RealModel ParamTypeModel ParamTypeSpec BlackboardModel BitModel ArrayModel ArraySpec TreeModel TreeSpec MemSpec SyncModel DomainModel
  DomainSpec MgrModel MgrSpec.
Import ListNotations.
Local Open Scope nat_scope.

(** The memory words that stand for a value of the type: an integer of the declared range, 0 or 1, a declared number, a finite
    number of the declared range.  Any word makes a fixed point number. *)
Definition word_accepted (t : ptype) (u : Z) : Prop :=
  match t with
  | PInt _ b lo hi => exists v, (lo <= v <= hi)%Z /\ u = word_of b v
  | PBool => u = 0%Z \/ u = 1%Z
  | PEnum b ps => exists l n, In (l, n) ps /\ u = word_of b n
  | PFix _ _ _ => True
  | PFloat a b => f32_finite u = true /\ (a <= f32_value u /\ f32_value u <= b)%Q
  end.

Definition word_at (t : ptype) (off : nat) (bb : blackboard) : Prop :=
  exists u, bb_read_int bb (pt_size t) off = Ok u /\ word_accepted t u.

(** The parameter of kind [k], at [off], holds a value of its type. *)
Definition value_ok (k : ekind) (off : nat) (bb : blackboard) : Prop :=
  match k with
  | KdParam t => word_at t off bb
  | KdArray t len => forall j, j < len -> word_at t (off + j * pt_size t) bb
  | KdString max => terminated max off bb
  | KdBit t => exists w, bb_read_int bb (bt_block t) off = Ok w /\ ((w / 2 ^ bt_pos t) mod 2 ^ bt_size t <= bt_max t)%Z
  | _ => True
  end.

(** The parameter [e] at [q] has a value of its type, live and in every configuration. *)
Definition valued (y : system) (q : list nat) (e : elem) (m : mgr) : Prop :=
  value_ok (e_kind e) (offset (sy_root y) q) (mg_main m)
  /\ forall d c a, In d (ds_list (mg_doms m)) -> In c (dm_configs d) -> In a (cf_areas c) -> above (ar_pos a) q ->
       value_ok (e_kind e) (offset (sy_root y) q - offset (sy_root y) (ar_pos a)) (ar_bb a).

(** No raw bytes are written over the parameter; nowhere. *)
Definition typed (q : list nat) (c : cmd) : Prop := cmd_ok c /\ ~ writes_bytes c q.
Definition all_typed (c : cmd) : Prop := cmd_ok c /\ forall p bytes, c <> CHandleBytes p bytes.

(** What a history of such commands can lead to, from a started framework whose string parameters are terminated. *)
Definition reachable_typed (y : system) (m : mgr) : Prop :=
  exists m0 cmds bs, started y m0
    /\ (forall q e max, param_at (sy_root y) q e -> e_kind e = KdString max -> valued y q e m0)
    /\ Forall all_typed cmds /\ run y m0 cmds = Ok (bs, m).

(** Zero, what memory starts with, is a value of the parameter. *)
Definition zero_ok (k : ekind) : Prop := match k with KdParam t | KdArray t _ => word_accepted t 0 | _ => True end.
