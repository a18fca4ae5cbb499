(** Model of the domain generator (tools/xmlGenerator/domainGeneratorConnector.cpp): the program that reads criteria and commands
    from its standard input and writes the domains that they make as XML.
    Simplifications: the text on the error output and the arguments of the program are not modelled; the files that the top level
    configuration names are given by the environment; a second start, which reads the structure into the same objects again, is
    outside of the model ([UB]); the text of the document is left to libxml2; assertions are not there in a release build; an
    exception thrown while a command is processed, which main catches, is not told apart from the end of the process ([Abort]). *)
From Coq Require Import List Arith ZArith Bool Ascii String.
From Verif Require Import Base TextModel ParamTypeModel BlackboardModel TreeModel CriterionModel SyncModel DomainModel MgrModel LoadModel XmlModel DomXmlModel RemoteModel CommandModel ReportModel CapiModel PlatModel.
Import ListNotations.
Local Open Scope nat_scope.

(** What the files lead to: the structure (none: refused), what the hardware gives, whether tuning is allowed, and the settings file
    (none: there is none, or it is not XML). *)
Record gfiles := GFiles { gf_structure : option (system * (nat -> option (list byte)) * bool); gf_settings : option xnode }.

(** domainGeneratorConnector.cpp:113-115: the connector; [gn_errors]: errorNb of parse. *)
Record gen := Gen { gn_sys : system; gn_mgr : mgr; gn_loaded : bool; gn_errors : nat }.

(** domainGeneratorConnector.cpp:57-76. *)
Definition g_new : gen := Gen empty_system (fresh_mgr [] (Domains [] [] 0) [] false) false 0.

(** domainGeneratorConnector.cpp:163-164: each line until the end of the file; a final newline gives a last empty line. *)
Fixpoint input_lines (cur input : str) : list str :=
  match input with
  | [] => [cur]
  | c :: r => if char_eqb c (ascii_of_nat 10) then cur :: input_lines [] r else input_lines (cur ++ [c]) r
  end.

(** domainGeneratorConnector.cpp:118-157 addCriteria; the arguments are those after the command.  [None]: an exception.  The same
    values as in the test platform: the index, or 1 << index. *)
Definition g_criterion (args : list str) (g : gen) : outcome (option gen) :=
  match args with
  | kind :: name :: v :: vs =>
      let incl := str_eqb kind (lit "inclusive") in
      do x <- add_states incl 0 (v :: vs) (cty_new incl);
      Ok (match x with
          | inl t => Some (Gen (gn_sys g) (with_crits (gn_mgr g) (crits_create (mg_crits (gn_mgr g)) name t)) (gn_loaded g) (gn_errors g))
          | inr _ => None
          end)
  | _ => Ok None
  end.

(** ParameterMgr.cpp:540-560 loadSettings, with setFailureOnFailedSettingsLoad(false): a refused file leaves no domain. *)
Definition g_settings (y : system) (ks : list criterion) (doc : option xnode) : outcome domains :=
  match doc with
  | None => Ok (Domains [] [] 0)
  | Some x => omap snd (import_all y ks true x (Domains [] [] 0))
  end.

(** domainGeneratorConnector.cpp:209-222 start, ParameterMgr.cpp:357-425 load without a remote server: then the tuning mode is
    turned on. *)
Definition g_start (fl : gfiles) (g : gen) : outcome (option gen) :=
  if gn_loaded g then UB
  else match gf_structure fl with
       | None => Ok None
       | Some (y, given, allowed) =>
           do s <- g_settings y (mg_crits (gn_mgr g)) (gf_settings fl);
           do m <- start_up y given allowed (mg_crits (gn_mgr g)) s;
           do z <- set_tuning y true [] m;
           Ok (if fst z then Some (Gen y (snd z) true (gn_errors g)) else None)
       end.

(** domainGeneratorConnector.cpp:164-189: one line; CommandHandlerWrapper.cpp:38-48 process: the blanks around the arguments go. *)
Definition g_line (os : outside) (ev : environment) (fl : gfiles) (line : str) (g : gen) : outcome (option gen) :=
  match split line [zero] false with
  | [] => Ok (Some g)
  | command :: args =>
      if str_eqb command (lit "createSelectionCriterion") then g_criterion args g
      else if str_eqb command (lit "start") then g_start fl g
      else
        do z <- process (gn_sys g) (reporting os (gn_sys g) ev) (gn_mgr g) (make_request command args);
        Ok (Some (Gen (gn_sys g) (snd z) (gn_loaded g) (if an_ok (fst z) then gn_errors g else S (gn_errors g))))
  end.

Fixpoint g_lines (os : outside) (ev : environment) (fl : gfiles) (ls : list str) (g : gen) : outcome (option gen) :=
  match ls with
  | [] => Ok (Some g)
  | l :: r => do z <- g_line os ev fl l g; match z with Some g' => g_lines os ev fl r g' | None => Ok None end
  end.

(** domainGeneratorConnector.cpp:193-207 conflictingElements.  [None]: an exception. *)
Definition g_conflicts (os : outside) (ev : environment) (g : gen) : outcome (option bool) :=
  do z <- process (gn_sys g) (reporting os (gn_sys g) ev) (gn_mgr g) (Request (lit "listConflictingElements") []);
  Ok (if an_ok (fst z) then Some (negb (List.length (an_text (fst z)) =? 0)) else None).

(** domainGeneratorConnector.cpp:224-233 exportDomains, 250-257 normalizeExitCode, 280-293 main: the code with which the program
    ends, and the document written. *)
Definition g_main (os : outside) (ev : environment) (fl : gfiles) (input : str) : outcome (nat * option xnode) :=
  do z <- g_lines os ev fl (input_lines [] input) g_new;
  match z with
  | None => Ok (1, None)
  | Some g =>
      do c <- g_conflicts os ev g;
      match c with
      | None => Ok (1, None)
      | Some b =>
          match export_domains (gn_sys g) true (gn_mgr g) with
          | Ok x => Ok (Nat.min (if b then S (gn_errors g) else gn_errors g) 255, Some x)
          | Err => Ok (1, None)
          | Abort => Abort
          | UB => UB
          end
      end
  end.
