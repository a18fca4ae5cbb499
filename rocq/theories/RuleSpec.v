(** Specification vocabulary for application rules: their meaning and their concrete syntax. *)
From Coq Require Import List Arith ZArith Bool Ascii String.
From Verif Require Import Base TextSpec CriterionModel CriterionSpec RuleModel.
Import ListNotations.
Open Scope Z_scope.

(** ** Meaning: a propositional formula over the states of the criteria *)

Definition verb_holds (w : verb) (state v : Z) : Prop :=
  match w with
  | VIs => state = v
  | VIsNot => state <> v
  | VIncludes => forall i, 0 <= i -> Z.testbit v i = true -> Z.testbit state i = true
  | VExcludes => forall i, 0 <= i -> Z.testbit v i = true -> Z.testbit state i = false
  end.

(** [state i]: state of the criterion at position [i]. *)
Inductive holds (state : nat -> Z) : rule -> Prop :=
| holds_crit : forall c w v, verb_holds w (state c) v -> holds state (RCrit c w v)
| holds_all : forall l, (forall r, In r l -> holds state r) -> holds state (RComp true l)
| holds_any : forall l r, In r l -> holds state r -> holds state (RComp false l).

(** The criteria referred to by a rule exist. *)
Inductive in_scope (cs : list criterion) : rule -> Prop :=
| scope_crit : forall c w v, (c < List.length cs)%nat -> in_scope cs (RCrit c w v)
| scope_comp : forall all l, (forall r, In r l -> in_scope cs r) -> in_scope cs (RComp all l).

(** ** Concrete syntax *)

Definition spaces (s : str) : Prop := forall c, In c s -> c = " "%char.
Definition free_of (cs s : str) : Prop := forall c, In c s -> ~ In c cs.

(** [k] is the criterion of name [n], at position [i]. *)
Definition named (cs : list criterion) (n : str) (i : nat) (k : criterion) : Prop :=
  nth_error cs i = Some k /\ cr_name k = n
  /\ forall j k', (j < i)%nat -> nth_error cs j = Some k' -> cr_path_name k' <> n.

(** Text of a rule, with any spacing:
      criterion rule  ::=  Name Verb Value        (words separated by spaces)
      compound rule   ::=  All{ rules }  |  Any{ rules }
      rules           ::=  nothing | rule , ... , rule *)
Inductive rule_text (cs : list criterion) : rule -> str -> Prop :=
| rt_crit : forall n i k w value v a b c d,
    named cs n i k -> n <> [] -> free_of (lit "{} ") n ->
    (cty_incl (cr_type k) = true \/ w = VIs \/ w = VIsNot) ->
    value_denotes (cr_type k) value v -> free_of (lit "{} ,") value ->
    spaces a -> spaces b -> b <> [] -> spaces c -> c <> [] -> spaces d ->
    rule_text cs (RCrit i w v) (a ++ n ++ b ++ verb_text w ++ c ++ value ++ d)
| rt_comp : forall (all : bool) l body a d,
    rules_text cs l body -> spaces a -> spaces d ->
    rule_text cs (RComp all l) (a ++ (if all then lit "All" else lit "Any") ++ lit "{" ++ body ++ lit "}" ++ d)
with rules_text (cs : list criterion) : list rule -> str -> Prop :=
| rst_nil : forall a, spaces a -> rules_text cs [] a
| rst_one : forall r s, rule_text cs r s -> rules_text cs [r] s
| rst_cons : forall r s l s', rule_text cs r s -> rules_text cs l s' -> l <> [] ->
    rules_text cs (r :: l) (s ++ lit "," ++ s').

(** Text given to setRule: a compound rule, no trailing space. *)
Definition source_text (cs : list criterion) (r : rule) (s : str) : Prop :=
  exists all l a body, r = RComp all l /\ spaces a /\ rules_text cs l body
    /\ s = a ++ (if all : bool then lit "All" else lit "Any") ++ lit "{" ++ body ++ lit "}".

(** Rules that setRule may install: existing criteria, verbs allowed by the type, values named by some text. *)
Inductive legal (cs : list criterion) : rule -> Prop :=
| legal_crit : forall i k w v value, nth_error cs i = Some k ->
    (cty_incl (cr_type k) = true \/ w = VIs \/ w = VIsNot) -> value_denotes (cr_type k) value v ->
    legal cs (RCrit i w v)
| legal_comp : forall all l, (forall r, In r l -> legal cs r) -> legal cs (RComp all l).

(** Criteria whose names and literals can be written in a rule. *)
Definition printable (cs : list criterion) : Prop :=
  (forall i k, nth_error cs i = Some k ->
     cr_name k <> [] /\ free_of (lit "{} ") (cr_name k)
     /\ (forall j k', nth_error cs j = Some k' -> cr_name k' = cr_name k -> i = j)
     /\ NoDup (map fst (cty_map (cr_type k))) /\ NoDup (map snd (cty_map (cr_type k)))
     /\ forall l v, In (l, v) (cty_map (cr_type k)) ->
          free_of (lit "{} ,") l /\ (cty_incl (cr_type k) = true -> l <> [] /\ ~ In "|"%char l)).

(** Every value of the rule is a single declared value of its criterion. *)
Inductive single_valued (cs : list criterion) : rule -> Prop :=
| sv_crit : forall i k w v l, nth_error cs i = Some k -> In (l, v) (cty_map (cr_type k)) ->
    single_valued cs (RCrit i w v)
| sv_comp : forall all l, (forall r, In r l -> single_valued cs r) -> single_valued cs (RComp all l).
