(** Model of application rules (parameter/CompoundRule.cpp, SelectionCriterionRule.cpp, RuleParser.cpp,
    DomainConfiguration.cpp). *)
From Coq Require Import List Arith ZArith Bool Ascii String Lia.
From Verif Require Import Base TextModel CriterionModel.
Import ListNotations.
Open Scope Z_scope.

(** SelectionCriterionRule.h:41-49. *)
Inductive verb := VIs | VIsNot | VIncludes | VExcludes.

(** Rules: a compound (CompoundRule.h, _bTypeAll and children) or a criterion rule (SelectionCriterionRule.h: the criterion,
    by its position in the criteria definition, the verb and the value). *)
Inductive rule :=
| RComp (all : bool) (children : list rule)
| RCrit (c : nat) (w : verb) (v : Z).

(** SelectionCriterionRule.cpp:44-45 _astMatchesWhen. *)
Definition verb_text (w : verb) : str :=
  match w with VIs => lit "Is" | VIsNot => lit "IsNot" | VIncludes => lit "Includes" | VExcludes => lit "Excludes" end.
Definition verb_exclusive_ok (w : verb) : bool := match w with VIs | VIsNot => true | _ => false end.
Definition all_verbs : list verb := [VIs; VIsNot; VIncludes; VExcludes].

(** CompoundRule.cpp:38 _apcTypes. *)
Definition comp_text (all : bool) : str := if all then lit "All" else lit "Any".

(** ** Evaluation *)

(** SelectionCriterionRule.cpp:123-140 matches.  A position outside the definition stands for a dangling pointer, which
    the creation functions never produce. *)
Definition crit_matches (cs : list criterion) (c : nat) (w : verb) (v : Z) : bool :=
  match nth_error cs c with
  | None => false
  | Some k => match w with
              | VIs => cr_is k v
              | VIsNot => cr_isnot k v
              | VIncludes => cr_includes k v
              | VExcludes => cr_excludes k v
              end
  end.

(** CompoundRule.cpp:111-126 matches. *)
Fixpoint rule_matches (cs : list criterion) (r : rule) : bool :=
  match r with
  | RCrit c w v => crit_matches cs c w v
  | RComp all children =>
      (fix loop (l : list rule) : bool :=
         match l with
         | [] => all
         | k :: l' => if xorb (rule_matches cs k) all then negb all else loop l'
         end) children
  end.

(** DomainConfiguration.cpp:408-413 isApplicable: no rule, never applicable. *)
Definition is_applicable (cs : list criterion) (r : option rule) : bool :=
  match r with Some r => rule_matches cs r | None => false end.

(** ** Text of a rule *)

(** SelectionCriterionRule.cpp:111-120 dump: the value text stays empty when the number has no literal. *)
Definition crit_dump (cs : list criterion) (c : nat) (w : verb) (v : Z) : str :=
  match nth_error cs c with
  | None => []
  | Some k => cr_name k ++ lit " " ++ verb_text w ++ lit " "
              ++ match cty_literal (cr_type k) v with Some l => l | None => [] end
  end.

(** CompoundRule.cpp:82-108 dump. *)
Fixpoint rule_dump (cs : list criterion) (r : rule) : str :=
  match r with
  | RCrit c w v => crit_dump cs c w v
  | RComp all children =>
      comp_text all ++ lit "{"
      ++ (fix loop (first : bool) (l : list rule) : str :=
            match l with
            | [] => []
            | k :: l' => (if first then [] else lit ", ") ++ rule_dump cs k ++ loop false l'
            end) true children
      ++ lit "}"
  end.

(** DomainConfiguration.cpp:294-298 getApplicationRule. *)
Definition get_application_rule (cs : list criterion) (r : option rule) : str :=
  match r with Some r => rule_dump cs r | None => lit "<none>" end.

(** ** Parser *)

(** RuleParser.h EStatus. *)
Inductive status := SInit | SBegin | SEnd | SCriterion | SContinue | SDone.

(** RuleParser.cpp:39-46 _acDelimiters. *)
Definition delimiters (s : status) : str :=
  match s with
  | SInit => lit "{"
  | SBegin => lit "{} "
  | SEnd => lit ",}"
  | SCriterion => lit ",}"
  | SContinue => lit "{ "
  | SDone => []
  end.

(** State of the parser: what follows _uiCurrentPos, _eStatus, _strRuleType, _currentDeepness. *)
Record pstate := PState { ps_rest : str; ps_status : status; ps_type : str; ps_deep : nat }.

(** RuleParser.cpp:154-158 and 246-250: the position does not move when only spaces remain. *)
Fixpoint drop_spaces (s : str) : str :=
  match s with
  | c :: r => if char_eqb c " "%char then drop_spaces r else s
  | [] => []
  end.
Definition consume_spaces (s : str) : str := match drop_spaces s with [] => s | r => r end.

(** std::string::find_first_of(cs, pos): the text before the first character of [cs], that character, and the text after. *)
Fixpoint find_first_of (cs : str) (s : str) : option (str * ascii * str) :=
  match s with
  | [] => None
  | c :: r => if in_chars cs c then Some ([], c, r)
              else match find_first_of cs r with
                   | Some (a, d, b) => Some (c :: a, d, b)
                   | None => None
                   end
  end.

(** RuleParser.cpp:147-214 iterate.  The position never exceeds the length, so the assertion on line 151 holds. *)
Definition iterate (p : pstate) : outcome pstate :=
  let rest := consume_spaces (ps_rest p) in
  match find_first_of (delimiters (ps_status p)) rest with
  | Some (before, d, after) =>
      if char_eqb d "{"%char then Ok (PState after SBegin before (S (ps_deep p)))
      else if char_eqb d "}"%char then
        match ps_deep p with
        | O => Err (* "Missing opening brace" *)
        | S n => Ok (PState after SEnd (ps_type p) n)
        end
      else if char_eqb d " "%char then Ok (PState after SCriterion before (ps_deep p))
      else Ok (PState after SContinue (ps_type p) (ps_deep p))
  | None =>
      match ps_deep p with
      | S _ => Err (* "Missing closing brace" *)
      | O => match rest with
             | [] => Ok (PState rest SDone (ps_type p) O)
             | _ :: _ => Err (* "Syntax error" *)
             end
      end
  end.

(** RuleParser.cpp:241-265 next: the word before the next delimiter, which is not consumed. *)
Definition next_word (p : pstate) : outcome (str * pstate) :=
  let rest := consume_spaces (ps_rest p) in
  match find_first_of (lit "{} ,") rest with
  | Some (before, d, after) => Ok (before, PState (d :: after) (ps_status p) (ps_type p) (ps_deep p))
  | None => Err
  end.

(** SelectionCriterionRule.cpp:217-250 setMatchesWhen. *)
Definition set_matches_when (t : crit_type) (s : str) : option verb :=
  match find (fun w => str_eqb s (verb_text w)) all_verbs with
  | Some w => if negb (cty_incl t) && negb (verb_exclusive_ok w) then None else Some w
  | None => None
  end.

(** SelectionCriterionRule.cpp:61-108 parse. *)
Definition crit_parse (cs : list criterion) (p : pstate) : outcome (rule * pstate) :=
  match crits_find cs (ps_type p) with
  | None => Err
  | Some i =>
      match nth_error cs i with
      | None => Err
      | Some k =>
          do vp <- next_word p;
          let '(vtext, p1) := vp in
          do wp <- next_word p1;
          let '(value, p2) := wp in
          match set_matches_when (cr_type k) vtext with
          | None => Err
          | Some w => match cty_numerical (cr_type k) value with
                      | None => Err
                      | Some v => Ok (RCrit i w v, p2)
                      end
          end
      end
  end.

(** CompoundRule.cpp:60-79 parse. *)
Definition comp_parse (s : str) : option bool :=
  if str_eqb s (lit "Any") then Some false
  else if str_eqb s (lit "All") then Some true else None.

(** RuleParser.cpp:61-144 parse.  [top]: no parent rule; [acc]: the children of the parent so far or, at the top, the
    root rule.  The recursion is on a bound which is never reached ([parse_text_total]): reaching it would be [UB]. *)
Fixpoint parse (fuel : nat) (cs : list criterion) (p : pstate) (top : bool) (acc : list rule)
  : outcome (pstate * list rule) :=
  match fuel with
  | O => UB
  | S fuel' =>
      do p1 <- iterate p;
      match ps_status p1 with
      | SBegin =>
          match comp_parse (ps_type p1) with
          | None => Err
          | Some all =>
              do sub <- parse fuel' cs p1 false [];
              let '(p2, children) := sub in
              let r := RComp all children in
              parse fuel' cs p2 top (if top then [r] else acc ++ [r])
          end
      | SEnd => Ok (p1, acc)
      | SContinue => parse fuel' cs p1 top acc
      | SCriterion =>
          do cp <- crit_parse cs p1;
          let '(r, p2) := cp in
          if top then Abort (* ALWAYS_ASSERT, line 117 *)
          else parse fuel' cs p2 top (acc ++ [r])
      | SDone => match acc with [] => if top then Err else Ok (p1, acc) | _ => Ok (p1, acc) end
      | SInit => Err
      end
  end.

(** RuleParser.cpp:48-53 constructor and DomainConfiguration.cpp:275-283: parse the text, grab the root rule. *)
Definition parse_text (cs : list criterion) (s : str) : outcome rule :=
  do res <- parse (S (List.length s)) cs (PState s SInit [] O) true [];
  match snd res with
  | r :: _ => Ok r
  | [] => Err
  end.

(** DomainConfiguration.cpp:270-286 setApplicationRule: result and new rule of the configuration. *)
Definition set_application_rule (cs : list criterion) (s : str) (old : option rule) : outcome (bool * option rule) :=
  match parse_text cs s with
  | Ok r => Ok (true, Some r)
  | Err => Ok (false, old)
  | Abort => Abort
  | UB => UB
  end.

(** DomainConfiguration.cpp:288-292 clearApplicationRule. *)
Definition clear_application_rule : option rule := None.
