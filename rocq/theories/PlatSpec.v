(** Vocabulary of the statements about the test platform. *)
From Coq Require Import List Arith ZArith Bool Ascii String.
From Verif Require Import Base TextModel CriterionModel CriterionSpec RuleSpec TreeModel TreeSpec SyncModel DomainModel MgrModel MgrSpec ValueSpec LoadModel LoadSpec RemoteModel CapiModel CapiSpec PlatModel.
Import ListNotations.
Local Open Scope nat_scope.

(** The request of a command, its answers. *)
Definition asks (su : surroundings) (p : plat) (command : string) (args : list str) : outcome (RemoteModel.answer * plat) :=
  pprocess su p (Request (lit command) args).
Definition done_answer : RemoteModel.answer := Answer (lit "Done") true.

Definition criteria (p : plat) : list criterion := mg_crits (pl_mgr p).

(** The platforms differ at most by their criteria. *)
Definition same_but_criteria (p p' : plat) : Prop :=
  pl_sys p' = pl_sys p /\ pl_loaded p' = pl_loaded p /\ pl_started p' = pl_started p /\ pl_policies p' = pl_policies p /\ pl_open p' = pl_open p
  /\ mg_doms (pl_mgr p') = mg_doms (pl_mgr p) /\ mg_main (pl_mgr p') = mg_main (pl_mgr p) /\ mg_tuning (pl_mgr p') = mg_tuning (pl_mgr p)
  /\ mg_allowed (pl_mgr p') = mg_allowed (pl_mgr p) /\ mg_autosync (pl_mgr p') = mg_autosync (pl_mgr p) /\ mg_raw (pl_mgr p') = mg_raw (pl_mgr p)
  /\ mg_hex (pl_mgr p') = mg_hex (pl_mgr p) /\ mg_trace (pl_mgr p') = mg_trace (pl_mgr p).

(** Only the criterion at position [i] changed, and its state is now [v]. *)
Definition state_set (p p' : plat) (i : nat) (v : Z) : Prop :=
  same_but_criteria p p' /\ List.length (criteria p') = List.length (criteria p)
  /\ (forall j, j <> i -> nth_error (criteria p') j = nth_error (criteria p) j)
  /\ exists k k', nth_error (criteria p) i = Some k /\ nth_error (criteria p') i = Some k'
       /\ cr_name k' = cr_name k /\ cr_type k' = cr_type k /\ cr_state k' = v.

(** The criterion called [n]: the first with this name, at position [i].  There is none. *)
Definition is_called (p : plat) (n : str) (i : nat) (k : criterion) : Prop := n <> [] /\ named (criteria p) n i k.
Definition not_called (p : plat) (n : str) : Prop := forall k, In k (criteria p) -> cr_path_name k <> n.

(** The number of 32 bits taken as an int. *)
Definition as_int (v : Z) : Z := if (v <? 2 ^ 31)%Z then v else (v - 2 ^ 32)%Z.

(** What a criterion of [count] states is given: State_0, State_1, ... or State_0x1, State_0x2, State_0x4, State_0x8, State_0x16, ... *)
Definition numbered_criterion (incl : bool) (name : str) (count : nat) (k : criterion) : Prop :=
  cr_name k = name /\ cty_incl (cr_type k) = incl /\ cr_state k = 0%Z
  /\ forall l v, cty_atomic (cr_type k) l = Some v
       <-> (exists i, i < count /\ v = number incl i /\ l = (if incl then lit "State_0x" else lit "State_") ++ print_dec v)
           \/ (incl = true /\ l = lit "none" /\ v = 0%Z).

(** What a platform can come to be. *)
Definition p_obtainable (p : plat) : Prop := exists vs answers, psession p_new vs = Ok (answers, p).

(** A started platform on the system [y], in the state [m]. *)
Definition p_running (y : system) (m : mgr) (p : plat) : Prop := pl_sys p = y /\ pl_mgr p = m /\ pl_started p = true /\ pl_loaded p = true.

(** The files of the surroundings are good for the criteria of the platform. *)
Definition good_start (y : system) (p : plat) (su : surroundings) : Prop :=
  system_ok y /\ exists given allowed s, su_files su (pl_policies p) (criteria p) = LDone y given allowed s true
    /\ answers_ok y given /\ loadable y (criteria p) s (initial_blackboard (sy_root y)).

(** The commands that are for before the start; those of the events after it. *)
Definition for_before (command : str) : Prop :=
  In command (map lit ["createExclusiveSelectionCriterionFromStateList"; "createInclusiveSelectionCriterionFromStateList";
                       "createExclusiveSelectionCriterion"; "createInclusiveSelectionCriterion"; "start"]%string).
Definition after_start (v : pevent) : Prop :=
  match v with EvRequest _ q => ~ for_before (rq_command q) | EvTune c => forall d n t, c <> CSetRule d n t end.

(** The event sets the criterion called [n]. *)
Definition p_sets (n : str) (v : pevent) : Prop :=
  match v with EvRequest _ q => rq_command q = lit "setCriterionState" /\ nth_error (rq_args q) 0 = Some n | EvTune _ => False end.

(** The state of the criterion called [n]. *)
Definition state_is (p : plat) (n : str) (v : Z) : Prop := exists i k, is_called p n i k /\ cr_state k = v.

(** The commands that create a criterion. *)
Definition list_command (incl : bool) : string :=
  if incl then "createInclusiveSelectionCriterionFromStateList" else "createExclusiveSelectionCriterionFromStateList".
Definition count_command (incl : bool) : string :=
  if incl then "createInclusiveSelectionCriterion" else "createExclusiveSelectionCriterion".

(** The commands of a policy: to set it, to get it, and the policy. *)
Inductive policy_commands : string -> string -> (policies -> bool) -> Prop :=
| pc_missing : policy_commands "setFailureOnMissingSubsystem" "getMissingSubsystemPolicy" po_missing
| pc_settings : policy_commands "setFailureOnFailedSettingsLoad" "getFailedSettingsLoadPolicy" po_settings
| pc_schemas : policy_commands "setValidateSchemasOnStart" "getValidateSchemasOnStart" po_schemas.

(** The texts of a boolean. *)
Definition bool_text (a : str) (b : bool) : Prop :=
  In a (map lit (if b then ["true"; "TRUE"; "1"] else ["false"; "FALSE"; "0"])%string).
Definition true_or_false (b : bool) : str := if b then lit "true" else lit "false".

(** The platforms differ at most by their policies. *)
Definition same_but_policies (p p' : plat) : Prop :=
  pl_sys p' = pl_sys p /\ pl_mgr p' = pl_mgr p /\ pl_loaded p' = pl_loaded p /\ pl_started p' = pl_started p /\ pl_open p' = pl_open p.
