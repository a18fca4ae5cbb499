(** What a user sees of the domains, and what the editing commands do to it: lists of names, elements and rules. *)
From Coq Require Import List Arith Bool Ascii String.
From Verif Require Import Base TreeModel TreeSpec CriterionModel RuleModel RuleSpec DomainModel MgrModel.
Import ListNotations.
Local Open Scope nat_scope.

(** A configuration: its name, its rule, its elements in the order of their application. *)
Record vconf := VConf { vc_name : str; vc_rule : option rule; vc_order : list (list nat) }.

(** A domain: its name, whether it is sequence aware, its elements (as positions in the structure), its configurations. *)
Record vdom := VDom { vd_name : str; vd_aware : bool; vd_elems : list (list nat); vd_confs : list vconf }.

Definition see_conf (c : config) : vconf := VConf (cf_name c) (cf_rule c) (map ar_pos (cf_areas c)).
Definition see_dom (d : domain) : vdom := VDom (dm_name d) (dm_aware d) (dm_elems d) (map see_conf (dm_configs d)).
Definition see (m : mgr) : list vdom := map see_dom (ds_list (mg_doms m)).

(** An object without a name is called by its kind. *)
Definition goes_by (kind : string) (name n : str) : bool := str_eqb (match name with [] => lit kind | _ => name end) n.
Definition dom_called (n : str) (d : vdom) : bool := goes_by "ConfigurableDomain" (vd_name d) n.
Definition conf_called (n : str) (c : vconf) : bool := goes_by "Configuration" (vc_name c) n.

(** The first one that satisfies [f], with what is before and after. *)
Fixpoint pick {A} (f : A -> bool) (l : list A) : option (list A * A * list A) :=
  match l with
  | [] => None
  | x :: r => if f x then Some ([], x, r)
              else match pick f r with Some (l1, z, l2) => Some (x :: l1, z, l2) | None => None end
  end.

(** A change of the domain called [n], of its configuration called [n]: the command fails when there is none. *)
Definition on_dom (n : str) (f : vdom -> bool * vdom) (l : list vdom) : bool * list vdom :=
  match pick (dom_called n) l with
  | Some (l1, d, l2) => let (b, d') := f d in (b, l1 ++ d' :: l2)
  | None => (false, l)
  end.
Definition vd_with (d : vdom) (l : list vconf) : vdom := VDom (vd_name d) (vd_aware d) (vd_elems d) l.
Definition on_conf (n : str) (f : vconf -> bool * vconf) (d : vdom) : bool * vdom :=
  match pick (conf_called n) (vd_confs d) with
  | Some (l1, c, l2) => let (b, c') := f c in (b, vd_with d (l1 ++ c' :: l2))
  | None => (false, d)
  end.

(** [q] is the element [p] or below it. *)
Fixpoint under (p q : list nat) : bool :=
  match p, q with
  | [], _ => true
  | i :: p', j :: q' => (i =? j) && under p' q'
  | _, [] => false
  end.
Definition same (p q : list nat) : bool := under p q && under q p.

(** The same change of the list of elements of a domain and of the order of each of its configurations. *)
Definition rearrange (f : list (list nat) -> list (list nat)) (d : vdom) : vdom :=
  VDom (vd_name d) (vd_aware d) (f (vd_elems d)) (map (fun c => VConf (vc_name c) (vc_rule c) (f (vc_order c))) (vd_confs d)).

(** The children of the element at [p]. *)
Definition children_at (root : elem) (p : list nat) : list (list nat) :=
  match elem_at root p with Some e => map (fun i => p ++ [i]) (seq 0 (List.length (e_children e))) | None => [] end.

(** The beginning of [paths] up to the first path that is repeated or not known. *)
Fixpoint usable (known : str -> bool) (seen paths : list str) : list str :=
  match paths with
  | [] => []
  | s :: r => if known s && negb (existsb (str_eqb s) seen) then s :: usable known (s :: seen) r else []
  end.

(** The elements of paths [firsts] come first, the other ones keep their order. *)
Definition reorder (root : elem) (firsts : list str) (order : list (list nat)) : list (list nat) :=
  flat_map (fun s => filter (fun p => str_eqb (path_in root p) s) order) firsts
  ++ filter (fun p => negb (existsb (str_eqb (path_in root p)) firsts)) order.

(** The commands that edit the domains, and those that need the tuning mode. *)
Definition editing (c : cmd) : bool :=
  match c with
  | CCreateDomain _ | CDeleteDomain _ | CDeleteAllDomains | CRenameDomain _ _ | CSequenceAware _ _ | CCreateConfig _ _ | CDeleteConfig _ _
  | CRenameConfig _ _ _ | CSave _ _ | CAddElement _ _ | CRemoveElement _ _ | CSplit _ _ | CSequence _ _ _ | CSetRule _ _ _ | CClearRule _ _ => true
  | _ => false
  end.
Definition for_tuning (c : cmd) : bool :=
  match c with CRenameDomain _ _ | CRenameConfig _ _ _ | CSetRule _ _ _ | CClearRule _ _ => false | _ => true end.

(** What an editing command answers, and the domains after it.  [parsed]: the rule that the text of setRule stands for, if any. *)
Definition edit (root : elem) (parsed : option rule) (c : cmd) (l : list vdom) : bool * list vdom :=
  match c with
  | CCreateDomain n => match pick (dom_called n) l with Some _ => (false, l) | None => (true, l ++ [VDom n false [] []]) end
  | CDeleteDomain n => match pick (dom_called n) l with Some (l1, _, l2) => (true, l1 ++ l2) | None => (false, l) end
  | CDeleteAllDomains => (true, [])
  | CRenameDomain n new =>
      match pick (dom_called n) l with
      | Some (l1, d, l2) => if existsb (fun k => str_eqb (vd_name k) new) (l1 ++ l2) then (false, l)
                            else (true, l1 ++ VDom new (vd_aware d) (vd_elems d) (vd_confs d) :: l2)
      | None => (false, l)
      end
  | CSequenceAware n b => on_dom n (fun d => (true, VDom (vd_name d) b (vd_elems d) (vd_confs d))) l
  | CCreateConfig n k =>
      on_dom n (fun d => match pick (conf_called k) (vd_confs d) with
                         | Some _ => (false, d)
                         | None => (true, vd_with d (vd_confs d ++ [VConf k None (vd_elems d)]))
                         end) l
  | CDeleteConfig n k =>
      on_dom n (fun d => match pick (conf_called k) (vd_confs d) with
                         | Some (l1, _, l2) => (true, vd_with d (l1 ++ l2))
                         | None => (false, d)
                         end) l
  | CRenameConfig n k new =>
      on_dom n (fun d => match pick (conf_called k) (vd_confs d) with
                         | Some (l1, c, l2) => if existsb (fun x => str_eqb (vc_name x) new) (l1 ++ l2) then (false, d)
                                               else (true, vd_with d (l1 ++ VConf new (vc_rule c) (vc_order c) :: l2))
                         | None => (false, d)
                         end) l
  | CSave n k => on_dom n (on_conf k (fun c => (true, c))) l
  | CAddElement n path =>
      match locate root path with
      | Some p => on_dom n (fun d => if existsb (fun q => under q p) (vd_elems d) then (false, d)
                                     else (true, rearrange (fun o => filter (fun q => negb (under p q)) o ++ [p]) d)) l
      | None => (false, l)
      end
  | CRemoveElement n path =>
      match locate root path with
      | Some p => on_dom n (fun d => if existsb (same p) (vd_elems d) then (true, rearrange (filter (fun q => negb (same p q))) d) else (false, d)) l
      | None => (false, l)
      end
  | CSplit n path =>
      match locate root path with
      | Some p => on_dom n (fun d => (true, if existsb (same p) (vd_elems d) && negb (match children_at root p with [] => true | _ => false end)
                                            then rearrange (fun o => filter (fun q => negb (same p q)) o ++ children_at root p) d else d)) l
      | None => (false, l)
      end
  | CSequence n k paths =>
      on_dom n (on_conf k (fun c =>
        let firsts := usable (fun s => existsb (fun p => str_eqb (path_in root p) s) (vc_order c)) [] paths in
        (List.length firsts =? List.length paths, VConf (vc_name c) (vc_rule c) (reorder root firsts (vc_order c))))) l
  | CSetRule n k _ =>
      on_dom n (on_conf k (fun c => match parsed with Some r => (true, VConf (vc_name c) (Some r) (vc_order c)) | None => (false, c) end)) l
  | CClearRule n k => on_dom n (on_conf k (fun c => (true, VConf (vc_name c) None (vc_order c)))) l
  | _ => (true, l)
  end.

(** [parsed] is what the text of the command stands for, with the criteria [cs]: the rule it is written for, and in any case a
    rule about these criteria. *)
Definition stands_for (cs : list criterion) (c : cmd) (parsed : option rule) : Prop :=
  match c with
  | CSetRule _ _ text => (forall r, source_text cs r text -> parsed = Some r) /\ forall r, parsed = Some r -> legal cs r /\ exists all l, r = RComp all l
  | _ => True
  end.
