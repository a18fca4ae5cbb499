(** What the statements about the client simulator say: the values asked of a criterion, and the states in which the configurations
    are applied. *)
From Coq Require Import List Bool Ascii String.
From Verif Require Import Base SimModel.
Import ListNotations.

(** A word: not empty and without blanks or control characters.  Words with one space between them. *)
Definition word (w : str) : Prop := w <> [] /\ forall c, In c w -> 32 < nat_of_ascii c.
Fixpoint spaced (ws : list str) : str :=
  match ws with [] => [] | [w] => w | w :: r => w ++ " "%char :: spaced r end.

(** The text [text] asks for the values [vs] of a criterion of the class [k]; "0" stands for the default state. *)
Inductive means (k : sclass) : str -> list str -> Prop :=
| MeansOne v : sc_incl k = false -> In v (sc_allowed k) \/ v = lit "0" -> means k v [v]
| MeansMany vs : sc_incl k = true -> vs <> [] -> (forall v, In v vs -> word v /\ In v (sc_allowed k) /\ v <> lit "0") ->
    means k (spaced vs) vs
| MeansDefault ws : sc_incl k = true -> In (lit "0") ws -> (forall v, In v ws -> word v) -> means k (spaced ws) [lit "0"].

(** The values of every criterion of the platform, by name. *)
Definition states := str -> list str.
Definition same_values (a b : list str) : Prop := forall v, In v a <-> In v b.

(** The states in which the configurations are applied, for what is launched. *)
Fixpoint applied (l : list launched) (s : states) : list states :=
  match l with
  | [] => []
  | LSet n vs :: r => applied r (fun x => if str_eqb x n then vs else s x)
  | LApply :: r => s :: applied r s
  | LScript _ :: r => applied r s
  end.
(** The scripts that are run. *)
Fixpoint scripts_run (l : list launched) : list str :=
  match l with [] => [] | LScript n :: r => n :: scripts_run r | _ :: r => scripts_run r end.

(** An object that asks only for things that exist: distinct keys, each one the name of a criterion, with a text that means values. *)
Definition valid_dict (ks : list sclass) (d : dict) : Prop :=
  d <> [] /\ NoDup (map fst d) /\
  forall n text, In (n, text) d -> exists k vs, In k ks /\ sc_name k = n /\ means k text vs.

(** From [s] to [s'] by the object [d]: the criteria it names have the values it asks for, the others are as they were. *)
Definition changes (ks : list sclass) (d : dict) (s s' : states) : Prop :=
  (forall n text k vs, In (n, text) d -> In k ks -> sc_name k = n -> means k text vs -> same_values (s' n) vs) /\
  (forall n, ~ In n (map fst d) -> s' n = s n).

(** What an action of the scenario is about: its own object or text, or the object with the values defined for its type, which win. *)
Inductive stands_for (gathered : list (str * action)) : action -> action -> Prop :=
| StandsSet d : stands_for gathered (t_set, ADict d) (t_set, ADict d)
| StandsScript n : stands_for gathered (t_script, AText n) (t_script, AText n)
| StandsDefined ty d d2 both : ty <> t_set -> ty <> t_script -> In (ty, (t_set, ADict d2)) gathered ->
    NoDup (map fst both) ->
    (forall n text, In (n, text) both <-> In (n, text) d2 \/ (In (n, text) d /\ ~ In n (map fst d2))) ->
    stands_for gathered (ty, ADict d) (t_set, ADict both).

(** A run of the actions: the states in which configurations are applied, one for each object, and the scripts. *)
Inductive runs (ks : list sclass) (scripts : list str) : list action -> states -> list states -> list str -> Prop :=
| RunsEnd s : runs ks scripts [] s [] []
| RunsSet d r s s' l q : changes ks d s s' -> runs ks scripts r s' l q -> runs ks scripts ((t_set, ADict d) :: r) s (s' :: l) q
| RunsScript n r s l q : In n scripts -> runs ks scripts r s l q -> runs ks scripts ((t_script, AText n) :: r) s l (n :: q).

(** An action that can be played. *)
Definition playable (ks : list sclass) (scripts : list str) (a : action) : Prop :=
  match a with
  | (ty, ADict d) => ty = t_set /\ valid_dict ks d
  | (ty, AText n) => ty = t_script /\ In n scripts
  end.

(** A text that a criterion of the class [k] refuses: a value that it does not have. *)
Inductive refused_text (k : sclass) : str -> Prop :=
| RefusedOne v : sc_incl k = false -> ~ In v (sc_allowed k) -> v <> lit "0" -> refused_text k v
| RefusedMany ws v : sc_incl k = true -> (forall w, In w ws -> word w) -> ~ In (lit "0") ws -> In v ws -> ~ In v (sc_allowed k) ->
    refused_text k (spaced ws).
(** An action that cannot be played: such a text for some criterion, or a script that does not exist. *)
Inductive refused (ks : list sclass) (scripts : list str) : action -> Prop :=
| RefusedSet d k text : NoDup (map fst d) -> In (sc_name k, text) d -> In k ks -> refused_text k text -> refused ks scripts (t_set, ADict d)
| RefusedScript n : ~ In n scripts -> refused ks scripts (t_script, AText n).
