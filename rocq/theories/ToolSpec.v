(** Vocabulary of the statements about the tool that makes a settings file. *)
From Coq Require Import List Arith Bool Ascii String.
From Verif Require Import Base XmlModel DomXmlModel DomXmlSpec MgrModel MgrSpec CommandModel CommandSpec ReportModel ReportSpec GenModel GenSpec EddModel EddSpec EddRunSpec.
Import ListNotations.
Local Open Scope nat_scope.

(** Blanks only; no blanks. *)
Definition gap (s : str) : Prop := forall c, In c s -> py_blank c = true.
Definition solid (s : str) : Prop := s <> [] /\ forall c, In c s -> py_blank c = false.

(** Words with blanks between them. *)
Inductive spaced : list str -> str -> Prop :=
| sp_one : forall w, solid w -> spaced [w] w
| sp_more : forall w g ws s, solid w -> gap g -> g <> [] -> spaced ws s -> spaced (w :: ws) (w ++ g ++ s).

Definition crit_tag (incl : bool) : str := lit (if incl then "InclusiveCriterion" else "ExclusiveCriterion").

(** A line of the file of the criteria: <type> <name> : <values>; if there is no blank before the colon, there is no colon in the
    values. *)
Inductive crit_written : str -> gcrit -> Prop :=
| cw_line : forall incl g1 name g2 g3 values s, gap g1 -> solid name -> gap g2 -> gap g3 -> spaced values s ->
    (g2 <> [] \/ forall v, In v values -> ~ In ":"%char v) ->
    crit_written (crit_tag incl ++ g1 ++ name ++ g2 ++ ":"%char :: g3 ++ s) (GCrit incl name values).

(** The requests that import: the settings, and the files of one domain each. *)
Definition import_requests (settings : option str) (files : list str) : list (string * list str) :=
  (match settings with Some f => [("importDomainsWithSettingsXML"%string, [f])] | None => [] end)
  ++ map (fun f => ("importDomainWithSettingsXML"%string, [f])) files.

(** An EDD file that makes sense: it is read as [doc], the operators are ANY and ALL, and its commands can be written. *)
Definition file_good (lines : list str) (doc : list edd) : Prop :=
  parse_edd lines = Ok doc /\ Forall operators_ok doc /\ Forall (Forall (fun w => tidy w /\ enterable w)) (EddSpec.script doc).
