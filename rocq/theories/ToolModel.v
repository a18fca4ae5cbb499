(** Model of the tool that makes a settings file (tools/xmlGenerator/domainGenerator.py): the file of the criteria, the files to
    import, the EDD files, and what is given to the connector.
    Simplifications: as in EddModel; a line has no newline character; the regular expressions are those of Python before 3.7 (an
    empty match does not split a text); the options of the command line are taken as already parsed; hostConfig.py is not there (the files are given as GenModel takes them). *)
From Coq Require Import List Arith Bool Ascii String.
From Verif Require Import Base XmlModel ReportModel CommandModel GenModel GenSpec EddModel.
Import ListNotations.
Local Open Scope nat_scope.

(** ** The criteria *)

(** \S* : the characters that are no blanks. *)
Fixpoint py_word (s : str) : str * str :=
  match s with
  | c :: r => if py_blank c then ([], s) else let z := py_word r in (c :: fst z, snd z)
  | [] => ([], [])
  end.

(** The last colon of a word that is not its first character: what is before and what is after. *)
Fixpoint last_colon (w : str) : option (str * str) :=
  match w with
  | [] => None
  | c :: r =>
      match last_colon r with
      | Some (a, b) => Some (c :: a, b)
      | None => match r with d :: r' => if char_eqb d ":"%char then Some ([c], r') else None | [] => None end
      end
  end.

(** re.split("\s*", values): at the blanks. *)
Fixpoint blank_fields (cur : str) (s : str) : list str :=
  match s with
  | [] => [rev cur]
  | c :: r =>
      if py_blank c then
        match r with
        | d :: _ => if py_blank d then blank_fields cur r else rev cur :: blank_fields [] r
        | [] => [rev cur; []]
        end
      else blank_fields (c :: cur) r
  end.

(** domainGenerator.py:102-126: the type, blanks, the name, blanks, a colon, blanks, the values; the name takes as many
    characters as it can. *)
Definition parse_criterion (line : str) : option gcrit :=
  let after (incl : bool) (r : str) :=
    let '(w, rest) := py_word (lstrip r) in
    match w with
    | [] => None
    | _ :: _ =>
        match lstrip rest with
        | c :: v => if char_eqb c ":"%char then Some (GCrit incl w (blank_fields [] (lstrip v)))
                    else match last_colon w with Some (n, v') => Some (GCrit incl n (blank_fields [] (lstrip (v' ++ rest)))) | None => None end
        | [] => match last_colon w with Some (n, v') => Some (GCrit incl n (blank_fields [] (lstrip (v' ++ rest)))) | None => None end
        end
    end in
  match starts_with (lit "InclusiveCriterion") line with
  | Some r => after true r
  | None => match starts_with (lit "ExclusiveCriterion") line with Some r => after false r | None => None end
  end.

(** domainGenerator.py:91-128 parseCriteria: a line that does not match is an error. *)
Fixpoint parse_criteria (lines : list str) : option (list gcrit) :=
  match lines with
  | [] => Some []
  | l :: r => match parse_criterion l with
              | None => None
              | Some c => match parse_criteria r with Some cs => Some (c :: cs) | None => None end
              end
  end.

(** ** The commands *)

(** domainGenerator.py:130-149 parseEdd: the code of the exit, or the elements of the files. *)
Fixpoint parse_edds (files : list (list str)) : outcome (nat + list (list edd)) :=
  match files with
  | [] => Ok (inr [])
  | f :: r =>
      match parse_edd f with
      | Err => Ok (inl 2)
      | Abort => Abort
      | UB => UB
      | Ok doc =>
          match propagate_all no_ctx doc with
          | Err => Ok (inl 1)
          | Abort => Abort
          | UB => UB
          | Ok d => do z <- parse_edds r; Ok (match z with inl k => inl k | inr ds => inr (d :: ds) end)
          end
      end
  end.

Fixpoint edds_commands (ds : list (list edd)) : outcome (list command) :=
  match ds with
  | [] => Ok []
  | d :: r => do a <- all_commands d; do b <- edds_commands r; Ok (a ++ b)
  end.

(** domainGenerator.py:151-180 generateDomainCommands. *)
Definition tool_commands (cs : list gcrit) (settings : option str) (files : list str) (edds : list command) : list command :=
  map (fun c => lit "createSelectionCriterion" :: lit (if gc_incl c then "inclusive" else "exclusive") :: gc_name c :: gc_values c) cs
  ++ [[lit "start"]]
  ++ (match settings with Some f => [[lit "importDomainsWithSettingsXML"; f]] | None => [] end)
  ++ map (fun f => [lit "importDomainWithSettingsXML"; f]) files
  ++ edds.

(** domainGenerator.py:182-226 main: the code of the exit and the document.  An exception ends Python with the code 1. *)
Definition tool_main (os : outside) (ev : environment) (fl : gfiles) (criteria : list str) (settings : option str) (files : list str) (edds : list (list str))
  : outcome (nat * option xnode) :=
  match parse_criteria criteria with
  | None => Ok (1, None)
  | Some cs =>
      do z <- parse_edds edds;
      match z with
      | inl code => Ok (code, None)
      | inr ds =>
          do cmds <- edds_commands ds;
          g_main os ev fl (flat_map (fun c => EddModel.command_line c ++ [ascii_of_nat 10]) (tool_commands cs settings files cmds))
      end
  end.
