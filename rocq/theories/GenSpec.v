(** Vocabulary of the statements about the domain generator. *)
From Coq Require Import List Arith ZArith Bool Ascii String.
From Verif Require Import Base TextModel CriterionModel TreeModel TreeSpec SyncModel DomainModel DomainSpec MgrModel MgrSpec LoadModel LoadSpec XmlModel DomXmlModel DomXmlSpec DomXmlHist
  RemoteModel RemoteSpec CommandModel CommandSpec ReportModel ReportSpec CapiModel CapiSpec GenModel.
Import ListNotations.
Local Open Scope nat_scope.

(** A line of the input: a command and its arguments, with null characters between them. *)
Definition input_line (command : str) (args : list str) : str := command ++ flat_map (fun a => zero :: a) args ++ [newline].
Definition enterable (s : str) : Prop := ~ In zero s /\ ~ In newline s.

(** A criterion to create: inclusive or not, its name, its values. *)
Record gcrit := GCrit { gc_incl : bool; gc_name : str; gc_values : list str }.
Definition as_c (c : gcrit) : c_criterion := CCrit (Some (gc_name c)) (gc_incl c) (Some (gc_values c)).
Definition crit_words (c : gcrit) : list str := lit (if gc_incl c then "inclusive" else "exclusive") :: gc_name c :: gc_values c.
Definition crit_line (c : gcrit) : str := input_line (lit "createSelectionCriterion") (crit_words c).
Definition crit_ok (c : gcrit) : Prop :=
  makeable (as_c c) /\ gc_values c <> [] /\ (Z.of_nat (List.length (gc_values c)) <= 2 ^ 31 - 1)%Z /\ Forall enterable (gc_name c :: gc_values c).

(** A command to carry out. *)
Definition command_line (r : string * list str) : str := input_line (lit (fst r)) (snd r).
Definition command_ok (r : string * list str) : Prop := lit (fst r) <> [] /\ enterable (lit (fst r)) /\ Forall enterable (snd r).

(** The criteria, the start, the commands. *)
Definition script (cs : list gcrit) (rs : list (string * list str)) : str :=
  flat_map crit_line cs ++ input_line (lit "start") [] ++ flat_map command_line rs.

(** Files that are good for a generator: a structure, hardware that gives what is asked, tuning allowed, a settings file, if any, that
    follows the schema. *)
Definition files_ok (y : system) (given : nat -> option (list byte)) (fl : gfiles) : Prop :=
  gf_structure fl = Some (y, given, true) /\ system_ok y /\ answers_ok y given /\ forall x, gf_settings fl = Some x -> domains_shaped x.

(** What a command does in the state [m]: whether it succeeds, and the state after it. *)
Inductive does (os : outside) (y : system) (need : list nat) (m : mgr) (name : string) (args : list str) : bool -> mgr -> Prop :=
| do_command : forall c b m', means need name args c -> step y m c = Ok (b, m') -> does os y need m name args b m'
| do_domains : forall text ws file b m', imports name args (IDomains text ws file) -> import_domains y ws (os_read os file text) m = Ok (b, m') -> does os y need m name args b m'
| do_domain : forall text over ws file b m', imports name args (IDomain text over ws file) -> import_domain y ws over (os_read os file text) m = Ok (b, m') ->
    all_valid (mg_doms m') -> does os y need m name args b m'
| do_unknown : (forall n, ~ mandatory (lit name) n) -> ~ In name ["createSelectionCriterion"; "start"]%string -> does os y need m name args false m
| do_missing : forall n, mandatory (lit name) n -> List.length args < n -> name <> "setSequenceAwareness"%string -> does os y need m name args false m.

(** The same for commands one after the other; the blanks around the arguments do not count. *)
Inductive all_do (os : outside) (y : system) (need : list nat) : mgr -> list (string * list str) -> list bool -> mgr -> Prop :=
| ad_nil : forall m, all_do os y need m [] [] m
| ad_cons : forall m name args args' r b m' bs m'', Forall2 trimmed args args' -> does os y need m name args' b m' ->
    all_do os y need m' r bs m'' -> all_do os y need m ((name, args) :: r) (b :: bs) m''.

(** The code of the end: the number of failed commands, one more if two domains hold the same element, 255 at most. *)
Definition failures (bs : list bool) : nat := List.length (filter negb bs).
Definition exit_code (m : mgr) (bs : list bool) (code : nat) : Prop :=
  (exists q, shared m q) /\ code = Nat.min 255 (failures bs + 1) \/ (forall q, ~ shared m q) /\ code = Nat.min 255 (failures bs).

(** What a generator has when it has started with these criteria and files: the criteria [ks], the domains [s] of the settings
    file, the state [m0]. *)
Definition generator_start (y : system) (given : nat -> option (list byte)) (fl : gfiles) (cs : list gcrit) (ks : list criterion) (s : domains) (m0 : mgr) : Prop :=
  Forall2 described (map as_c cs) ks /\ (forall k, In k ks -> cr_state k = 0%Z)
  /\ settings_file y ks (gf_settings fl) s
  /\ exists m, start_up y given true ks s = Ok m /\ step y m (CTuning true []) = Ok (true, m0).
