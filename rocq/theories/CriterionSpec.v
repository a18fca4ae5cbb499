(** Specification vocabulary for selection criteria. *)
From Coq Require Import List Arith ZArith Bool Ascii String.
From Verif Require Import Base TextSpec CriterionModel.
Import ListNotations.
Open Scope Z_scope.

Definition is_int (v : Z) : Prop := - 2 ^ 31 <= v <= 2 ^ 31 - 1.
Definition single_bit (v : Z) : Prop := exists k, 0 <= k < 31 /\ v = 2 ^ k.

(** The types that can be built through the API: creation, then any calls of addValuePair, accepted or not. *)
Inductive built (incl : bool) : crit_type -> Prop :=
| built_new : built incl (cty_new incl)
| built_add : forall t v l t', built incl t -> is_int v -> cty_add t v l = Ok t' -> built incl t'.

(** [value_denotes t s v]: the text [s] names the value [v] of the type: a declared literal or, for an inclusive type,
    declared literals separated by bars, whose bits are joined. *)
Definition value_denotes (t : crit_type) (s : str) (v : Z) : Prop :=
  if cty_incl t then
    exists toks vs, runs (lit "|") s toks
      /\ Forall2 (fun k w => In (k, w) (cty_map t)) toks vs /\ v = fold_left Z.lor vs 0
  else In (s, v) (cty_map t).

(** Value of a criterion after a sequence of settings. *)
Fixpoint last_setting (settings : list (nat * Z)) (i : nat) (init : Z) : Z :=
  match settings with
  | [] => init
  | (j, v) :: r => last_setting r i (if Nat.eqb j i then v else init)
  end.

(** Calls of a client on its criteria: setCriterionState on the criterion at a position, applyConfigurations (which clears
    the modification counts). *)
Inductive crit_op := SetState (i : nat) (v : Z) | Apply.

(** What is known of the criterion [i] after the calls: its state, and how many times it changed since the last apply. *)
Fixpoint history (i : nat) (ops : list crit_op) (state count : Z) : Z * Z :=
  match ops with
  | [] => (state, count)
  | SetState j v :: r =>
      if Nat.eqb j i then history i r v (if v =? state then count else count + 1) else history i r state count
  | Apply :: r => history i r state 0
  end.
