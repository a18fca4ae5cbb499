(** Model of the configurable domains (parameter/ConfigurableDomains.cpp, ConfigurableDomain.cpp, DomainConfiguration.cpp,
    AreaConfiguration.cpp, BitwiseAreaConfiguration.cpp, ConfigurableElement.cpp). *)
From Coq Require Import List Arith ZArith Bool Ascii String.
From Verif Require Import Base TextModel CriterionModel RuleModel ParamTypeModel BlackboardModel BitModel ArrayModel TreeModel SyncModel.
Import ListNotations.
Local Open Scope nat_scope.

(** ** Positions *)

Fixpoint pos_eqb (p q : pos) : bool :=
  match p, q with
  | [], [] => true
  | i :: p', j :: q' => (i =? j) && pos_eqb p' q'
  | _, _ => false
  end.

(** Element.cpp:451-462 isDescendantOf: [q] is strictly below [p]. *)
Fixpoint descendant_of (q p : pos) : bool :=
  match p, q with
  | [], _ :: _ => true
  | i :: p', j :: q' => (i =? j) && descendant_of q' p'
  | _, _ => false
  end.

(** ** Areas *)

(** AreaConfiguration.h: _pConfigurableElement, _blackboard, _bValid.  The syncer set it points to is the one of its element
    ([syncer_set]). *)
Record area := Area { ar_pos : pos; ar_bb : blackboard; ar_valid : bool }.

(** AreaConfiguration.cpp:35-49, BitwiseAreaConfiguration.cpp:36-41: size of the blackboard of an area. *)
Definition area_size (e : elem) : nat := match e_kind e with KdBit t => bt_block t | _ => footprint e end.

(** ConfigurableElement::createAreaConfiguration, BitParameter::createAreaConfiguration. *)
Definition new_area (y : system) (p : pos) : outcome area :=
  match elem_at (sy_root y) p with
  | Some e => Ok (Area p (bb_set_size [] (area_size e)) false)
  | None => UB
  end.

(** AreaConfiguration.cpp:175-178, BitwiseAreaConfiguration.cpp:44-65 copyTo: the new content of the destination.
    BitParameter.cpp merge, see [bit_merge]. *)
Definition copy_to (y : system) (a : area) (to : blackboard) (off : nat) : outcome blackboard :=
  match elem_at (sy_root y) (ar_pos a) with
  | None => UB
  | Some e =>
      match e_kind e with
      | KdBit t =>
          do dst <- bb_read_int to (bt_block t) off;
          do src <- bb_read_int (ar_bb a) (bt_block t) 0;
          bb_write_int to (bit_merge t dst src) (bt_block t) off
      | _ => bb_restore_from to (ar_bb a) off
      end
  end.

(** AreaConfiguration.cpp:180-183, BitwiseAreaConfiguration.cpp:67-88 copyFrom: the new content of the area. *)
Definition copy_from (y : system) (a : area) (from : blackboard) (off : nat) : outcome area :=
  match elem_at (sy_root y) (ar_pos a) with
  | None => UB
  | Some e =>
      match e_kind e with
      | KdBit t =>
          do dst <- bb_read_int (ar_bb a) (bt_block t) 0;
          do src <- bb_read_int from (bt_block t) off;
          do b <- bb_write_int (ar_bb a) (bit_merge t dst src) (bt_block t) 0;
          Ok (Area (ar_pos a) b (ar_valid a))
      | _ => do b <- bb_save_to from (ar_bb a) off; Ok (Area (ar_pos a) b (ar_valid a))
      end
  end.

(** AreaConfiguration.cpp:52-55 save. *)
Definition area_save (y : system) (main : blackboard) (a : area) : outcome area :=
  copy_from y a main (offset (sy_root y) (ar_pos a)).

Definition set_valid (a : area) : area := Area (ar_pos a) (ar_bb a) true.

(** AreaConfiguration.cpp:58-67 restore: result, main blackboard, errors, trace.  The assertion on the validity is only
    compiled in debug builds. *)
Definition area_restore (y : system) (sync : bool) (a : area) (main : blackboard) (tr : list event)
  : outcome (bool * blackboard * list nat * list event) :=
  do main' <- copy_to y a main (offset (sy_root y) (ar_pos a));
  if sync then let '(ok, errs, tr') := sync_set y (syncer_set y (ar_pos a)) main' tr in Ok (ok, main', errs, tr')
  else Ok (true, main', [], tr).

(** AreaConfiguration.cpp:70-79 validate. *)
Definition area_validate (y : system) (main : blackboard) (a : area) : outcome area :=
  if ar_valid a then Ok a else omap set_valid (area_save y main a).

(** AreaConfiguration.cpp:88-104 validateAgainst. *)
Definition area_validate_against (good a : area) : outcome area :=
  do b <- bb_restore_from (ar_bb a) (ar_bb good) 0; Ok (Area (ar_pos a) b true).

(** AreaConfiguration.cpp:137-144 copyToOuter: the new outer area.  Its validity does not change. *)
Definition copy_to_outer (y : system) (inner outer : area) : outcome area :=
  do b <- copy_to y inner (ar_bb outer) (offset (sy_root y) (ar_pos inner) - offset (sy_root y) (ar_pos outer));
  Ok (Area (ar_pos outer) b (ar_valid outer)).

(** AreaConfiguration.cpp:146-156 copyFromOuter: the new inner area. *)
Definition copy_from_outer (y : system) (outer inner : area) : outcome area :=
  omap set_valid
    (copy_from y inner (ar_bb outer) (offset (sy_root y) (ar_pos inner) - offset (sy_root y) (ar_pos outer))).

(** ** Configurations *)

(** DomainConfiguration.h: name, rule (its child), mAreaConfigurationList.  [cf_id] stands for its address. *)
Record config := Config { cf_id : nat; cf_name : str; cf_rule : option rule; cf_areas : list area }.

Definition with_areas (c : config) (l : list area) : config := Config (cf_id c) (cf_name c) (cf_rule c) l.

(** Element.cpp:267-276 getPathName and DomainConfiguration.cpp:54-57 getKind. *)
Definition cf_path_name (c : config) : str := match cf_name c with [] => lit "Configuration" | n => n end.

(** DomainConfiguration.cpp:450-461 getAreaConfiguration: terminates when there is none. *)
Fixpoint get_area (p : pos) (l : list area) : outcome area :=
  match l with
  | [] => Abort
  | a :: r => if pos_eqb (ar_pos a) p then Ok a else get_area p r
  end.

(** Replacement of the area found by [get_area]. *)
Fixpoint upd_area (p : pos) (f : area -> outcome area) (l : list area) : outcome (list area) :=
  match l with
  | [] => Abort
  | a :: r => if pos_eqb (ar_pos a) p then do a' <- f a; Ok (a' :: r)
              else do r' <- upd_area p f r; Ok (a :: r')
  end.

(** A function applied to all the items of a list, in order. *)
Fixpoint omap_list {A B} (f : A -> outcome B) (l : list A) : outcome (list B) :=
  match l with
  | [] => Ok []
  | a :: r => do b <- f a; do r' <- omap_list f r; Ok (b :: r')
  end.

(** DomainConfiguration.cpp:214-218 addConfigurableElement. *)
Definition cf_add (y : system) (p : pos) (c : config) : outcome config :=
  do a <- new_area y p; Ok (with_areas c (cf_areas c ++ [a])).

(** DomainConfiguration.cpp:220-226 removeConfigurableElement. *)
Fixpoint remove_area (p : pos) (l : list area) : outcome (list area) :=
  match l with
  | [] => Abort
  | a :: r => if pos_eqb (ar_pos a) p then Ok r else do r' <- remove_area p r; Ok (a :: r')
  end.
Definition cf_remove (p : pos) (c : config) : outcome config := omap (with_areas c) (remove_area p (cf_areas c)).

(** DomainConfiguration.cpp:463-472 findAreaConfigurationByPath. *)
Fixpoint find_area_path (y : system) (path : str) (l : list area) : option area :=
  match l with
  | [] => None
  | a :: r => if str_eqb (path_in (sy_root y) (ar_pos a)) path then Some a else find_area_path y path r
  end.

(** The first area of that path removed from a list. *)
Fixpoint drop_area_path (y : system) (path : str) (l : list area) : list area :=
  match l with
  | [] => []
  | a :: r => if str_eqb (path_in (sy_root y) (ar_pos a)) path then r else a :: drop_area_path y path r
  end.

(** std::list::splice of the area found to the insertion location.  The list is cut at this location: [placed] holds what
    comes before. *)
Definition splice (y : system) (path : str) (placed rest : list area) (a : area) : list area * list area :=
  match find_area_path y path placed with
  | Some _ => (drop_area_path y path placed ++ [a], rest)
  | None => (placed ++ [a], drop_area_path y path rest)
  end.

(** DomainConfiguration.cpp:228-258 setElementSequence: result and areas; [seen]: the paths already given. *)
Fixpoint sequence_loop (y : system) (paths seen : list str) (placed rest : list area) : bool * list area :=
  match paths with
  | [] => (true, placed ++ rest)
  | path :: more =>
      match find_area_path y path (placed ++ rest) with
      | None => (false, placed ++ rest)
      | Some a =>
          if existsb (str_eqb path) seen then (false, placed ++ rest)
          else let (placed', rest') := splice y path placed rest a in
               sequence_loop y more (seen ++ [path]) placed' rest'
      end
  end.
Definition cf_set_sequence (y : system) (paths : list str) (c : config) : bool * config :=
  let (ok, l) := sequence_loop y paths [] [] (cf_areas c) in (ok, with_areas c l).

(** DomainConfiguration.cpp:260-267 getElementSequence. *)
Definition cf_sequence (y : system) (c : config) : list str := map (fun a => path_in (sy_root y) (ar_pos a)) (cf_areas c).

(** DomainConfiguration.cpp:327-333 save. *)
Definition cf_save (y : system) (main : blackboard) (c : config) : outcome config :=
  omap (with_areas c) (omap_list (area_save y main) (cf_areas c)).

(** DomainConfiguration.cpp:336-343 restore. *)
Fixpoint restore_areas (y : system) (sync : bool) (l : list area) (main : blackboard) (tr : list event)
  : outcome (bool * blackboard * list nat * list event) :=
  match l with
  | [] => Ok (true, main, [], tr)
  | a :: r =>
      do x <- area_restore y sync a main tr;
      let '(ok, main1, errs, tr1) := x in
      do z <- restore_areas y sync r main1 tr1;
      let '(ok2, main2, errs2, tr2) := z in
      Ok (ok && ok2, main2, errs ++ errs2, tr2)
  end.
Definition cf_restore (y : system) (sync : bool) (c : config) := restore_areas y sync (cf_areas c).

(** DomainConfiguration.cpp:346-353 and 356-361 validate. *)
Definition cf_validate_area (y : system) (p : pos) (main : blackboard) (c : config) : outcome config :=
  omap (with_areas c) (upd_area p (area_validate y main) (cf_areas c)).
Definition cf_validate (y : system) (main : blackboard) (c : config) : outcome config :=
  omap (with_areas c) (omap_list (area_validate y main) (cf_areas c)).

(** DomainConfiguration.cpp:364-374 isValid. *)
Definition cf_is_valid (p : pos) (c : config) : outcome bool := omap ar_valid (get_area p (cf_areas c)).

(** DomainConfiguration.cpp:377-387 validateAgainst, for one element. *)
Definition cf_validate_area_against (good : config) (p : pos) (c : config) : outcome config :=
  do g <- get_area p (cf_areas good);
  omap (with_areas c) (upd_area p (area_validate_against g) (cf_areas c)).

(** DomainConfiguration.cpp:389-405 validateAgainst. *)
Fixpoint against_loop (good : list area) (l : list area) : outcome (list area) :=
  match good with
  | [] => Ok l
  | g :: r => do l' <- upd_area (ar_pos g) (area_validate_against g) l; against_loop r l'
  end.
Definition cf_validate_against (good c : config) : outcome config :=
  if List.length (cf_areas c) =? List.length (cf_areas good)
  then omap (with_areas c) (against_loop (cf_areas good) (cf_areas c)) else Abort.

(** DomainConfiguration.cpp:408-413 isApplicable. *)
Definition cf_applicable (cs : list criterion) (c : config) : bool := is_applicable cs (cf_rule c).

(** DomainConfiguration.cpp:416-425 merge. *)
Definition cf_merge (y : system) (to from : pos) (c : config) : outcome config :=
  do f <- get_area from (cf_areas c);
  omap (with_areas c) (upd_area to (copy_to_outer y f) (cf_areas c)).

(** DomainConfiguration.cpp:428-448 split, on the children [ps] of the element. *)
Fixpoint split_loop (y : system) (outer : area) (ps : list pos) (l : list area) : outcome (list area) :=
  match ps with
  | [] => Ok l
  | p :: r => do l' <- upd_area p (copy_from_outer y outer) l; split_loop y outer r l'
  end.
Definition cf_split (y : system) (from : pos) (ps : list pos) (c : config) : outcome config :=
  do f <- get_area from (cf_areas c);
  omap (with_areas c) (split_loop y f ps (cf_areas c)).

(** ** Domains *)

(** ConfigurableDomain.h: name, configurations (its children), _bSequenceAware, _configurableElementList,
    _pLastAppliedConfiguration, _syncerSet.  [dm_id] stands for its address, [dm_fresh] is an address not yet used by one of
    its configurations.  The keys of _configurableElementToSyncerSetMap are the elements of the list. *)
Record domain := Domain { dm_id : nat; dm_name : str; dm_aware : bool; dm_elems : list (list nat); dm_configs : list config;
  dm_last : option nat; dm_syncers : list nat; dm_fresh : nat }.

Definition with_configs (d : domain) (l : list config) : domain :=
  Domain (dm_id d) (dm_name d) (dm_aware d) (dm_elems d) l (dm_last d) (dm_syncers d) (dm_fresh d).
Definition with_elems (d : domain) (l : list pos) : domain :=
  Domain (dm_id d) (dm_name d) (dm_aware d) l (dm_configs d) (dm_last d) (dm_syncers d) (dm_fresh d).
Definition with_syncers (d : domain) (l : list nat) : domain :=
  Domain (dm_id d) (dm_name d) (dm_aware d) (dm_elems d) (dm_configs d) (dm_last d) l (dm_fresh d).
Definition with_last (d : domain) (o : option nat) : domain :=
  Domain (dm_id d) (dm_name d) (dm_aware d) (dm_elems d) (dm_configs d) o (dm_syncers d) (dm_fresh d).
Definition with_name (d : domain) (n : str) : domain :=
  Domain (dm_id d) n (dm_aware d) (dm_elems d) (dm_configs d) (dm_last d) (dm_syncers d) (dm_fresh d).
Definition with_aware (d : domain) (b : bool) : domain :=
  Domain (dm_id d) (dm_name d) b (dm_elems d) (dm_configs d) (dm_last d) (dm_syncers d) (dm_fresh d).
Definition with_fresh (d : domain) (n : nat) : domain :=
  Domain (dm_id d) (dm_name d) (dm_aware d) (dm_elems d) (dm_configs d) (dm_last d) (dm_syncers d) n.

(** ConfigurableDomain.cpp:72-75 getKind, Element.cpp:267-276 getPathName. *)
Definition dm_path_name (d : domain) : str := match dm_name d with [] => lit "ConfigurableDomain" | n => n end.

Definition new_domain (id : nat) (name : str) : domain := Domain id name false [] [] None [] 0.

(** The domains attached to the elements (ConfigurableElement.h _configurableDomainList of all the elements): pairs of an
    element and a domain, in the order of the calls. *)
Definition attachments := list (list nat * nat).

(** ConfigurableElement.cpp:418-428 addAttachedConfigurableDomain, removeAttachedConfigurableDomain. *)
Definition attach (p : pos) (id : nat) (at_ : attachments) : attachments := at_ ++ [(p, id)].
Definition detach (p : pos) (id : nat) (at_ : attachments) : attachments :=
  filter (fun x => negb (pos_eqb (fst x) p && (snd x =? id))) at_.
Definition attached_to (at_ : attachments) (p : pos) : list nat :=
  map snd (filter (fun x => pos_eqb (fst x) p) at_).

(** ConfigurableElement.cpp:431-438, 595-623 belongsTo: attached to the element or to one of its ancestors. *)
Fixpoint belongs_up (at_ : attachments) (rp : pos) (id : nat) : bool :=
  existsb (Nat.eqb id) (attached_to at_ (rev rp)) || match rp with [] => false | _ :: r => belongs_up at_ r id end.
Definition belongs_to (at_ : attachments) (p : pos) (id : nat) : bool := belongs_up at_ (rev p) id.

(** ConfigurableElement.cpp:441-455, 555-563 getBelongingDomains. *)
Fixpoint belonging_up (at_ : attachments) (rp : pos) : list nat :=
  attached_to at_ (rev rp) ++ match rp with [] => [] | _ :: r => belonging_up at_ r end.
Definition belonging_domains (at_ : attachments) (p : pos) : list nat := belonging_up at_ (rev p).

(** ConfigurableDomain.cpp:1027-1041 containsConfigurableElement. *)
Definition dm_contains (d : domain) (p : pos) : bool := existsb (pos_eqb p) (dm_elems d).

(** ConfigurableDomain.cpp:599-614 computeSyncSet. *)
Definition compute_sync_set (y : system) (d : domain) : domain :=
  with_syncers d (fold_left (fun acc p => set_union acc (syncer_set y p)) (dm_elems d) []).

(** ConfigurableDomain.cpp:1148-1179 doRemoveConfigurableElement (std::list::remove drops every occurrence). *)
Definition dm_do_remove (y : system) (p : pos) (recompute : bool) (d : domain) (at_ : attachments)
  : outcome (domain * attachments) :=
  let d1 := with_elems d (filter (fun q => negb (pos_eqb q p)) (dm_elems d)) in
  do cfs <- omap_list (cf_remove p) (dm_configs d1);
  let d2 := with_configs d1 cfs in
  Ok (if recompute then compute_sync_set y d2 else d2, detach p (dm_id d) at_).

Fixpoint do_remove_all (y : system) (ps : list pos) (d : domain) (at_ : attachments) : outcome (domain * attachments) :=
  match ps with
  | [] => Ok (d, at_)
  | p :: r => do x <- dm_do_remove y p false d at_; do_remove_all y r (fst x) (snd x)
  end.

(** ConfigurableDomain.cpp:1084-1098 mergeConfigurations, for each of the elements [ps]. *)
Fixpoint merge_all (y : system) (to : pos) (ps : list pos) (cfs : list config) : outcome (list config) :=
  match ps with
  | [] => Ok cfs
  | p :: r => do cfs' <- omap_list (cf_merge y to p) cfs; merge_all y to r cfs'
  end.

(** ConfigurableDomain.cpp:1044-1082 mergeAlreadyAssociatedDescendantConfigurableElements. *)
Definition dm_merge (y : system) (p : pos) (d : domain) (at_ : attachments) : outcome (domain * attachments) :=
  let merged := filter (fun q => descendant_of q p) (dm_elems d) in
  do cfs <- merge_all y p merged (dm_configs d);
  do_remove_all y merged (with_configs d cfs) at_.

(** ConfigurableDomain.cpp:1101-1146 doAddConfigurableElement. *)
Definition dm_do_add (y : system) (p : pos) (main : option blackboard) (d : domain) (at_ : attachments)
  : outcome (domain * attachments) :=
  let at1 := attach p (dm_id d) at_ in
  let d1 := with_syncers d (set_union (dm_syncers d) (syncer_set y p)) in
  do cfs <- omap_list (cf_add y p) (dm_configs d1);
  do cfs2 <- match main with
             | Some m => omap_list (cf_validate_area y p m) cfs
             | None => Ok cfs
             end;
  do x <- dm_merge y p (with_configs d1 cfs2) at1;
  Ok (with_elems (fst x) (dm_elems (fst x) ++ [p]), snd x).

(** ConfigurableDomain.cpp:364-390 addConfigurableElement. *)
Definition dm_add (y : system) (p : pos) (main : option blackboard) (d : domain) (at_ : attachments)
  : outcome (bool * (domain * attachments)) :=
  if dm_contains d p then Ok (false, (d, at_))
  else if belongs_to at_ p (dm_id d) then Ok (false, (d, at_))
  else omap (pair true) (dm_do_add y p main d at_).

(** ConfigurableDomain.cpp:392-408 removeConfigurableElement. *)
Definition dm_remove (y : system) (p : pos) (d : domain) (at_ : attachments) : outcome (bool * (domain * attachments)) :=
  if dm_contains d p then omap (pair true) (dm_do_remove y p true d at_) else Ok (false, (d, at_)).

Fixpoint do_add_all (y : system) (ps : list pos) (d : domain) (at_ : attachments) : outcome (domain * attachments) :=
  match ps with
  | [] => Ok (d, at_)
  | p :: r => do x <- dm_do_add y p None d at_; do_add_all y r (fst x) (snd x)
  end.

(** The children of an element. *)
Definition children_pos (p : pos) (e : elem) : list pos := map (fun i => p ++ [i]) (seq 0 (List.length (e_children e))).

(** ConfigurableDomain.cpp:470-519 split. *)
Definition dm_split (y : system) (p : pos) (d : domain) (at_ : attachments) : outcome (bool * (domain * attachments)) :=
  if dm_contains d p then
    match elem_at (sy_root y) p with
    | None => UB
    | Some e =>
        match children_pos p e with
        | [] => Ok (false, (d, at_))
        | ps =>
            do x <- do_add_all y ps d at_;
            do cfs <- omap_list (cf_split y p ps) (dm_configs (fst x));
            omap (pair true) (dm_do_remove y p false (with_configs (fst x) cfs) (snd x))
        end
    end
  else Ok (false, (d, at_)).

(** ConfigurableDomain.cpp:1001-1016 findApplicableDomainConfiguration. *)
Definition dm_applicable (cs : list criterion) (d : domain) : option config := find (cf_applicable cs) (dm_configs d).

(** Element.cpp:464-488 findChild for a configuration. *)
Definition dm_find (name : str) (d : domain) : option config :=
  find (fun c => str_eqb (cf_path_name c) name) (dm_configs d).

(** Comparison with _pLastAppliedConfiguration. *)
Definition is_last (d : domain) (c : config) : bool :=
  match dm_last d with Some i => i =? cf_id c | None => false end.

(** ConfigurableDomain.cpp:542-585 apply.  [shared]: the syncer set of the caller, or a null pointer. *)
Definition dm_apply (y : system) (cs : list criterion) (force : bool) (d : domain) (shared : option (list nat))
  (main : blackboard) (tr : list event) : outcome (domain * option (list nat) * blackboard * list event) :=
  let is_null := match shared with None => true | Some _ => false end in
  if xorb is_null (dm_aware d) then Ok (d, shared, main, tr)
  else
    let d1 := if force then with_last d None else d in
    match dm_applicable cs d1 with
    | None => Ok (d1, shared, main, tr)
    | Some c =>
        if is_last d1 c then Ok (d1, shared, main, tr)
        else
          do x <- cf_restore y (is_null && dm_aware d1) c main tr;
          let '(_, main', _, tr') := x in
          let shared' := match shared with
                         | Some ss => if dm_aware d1 then shared else Some (set_union ss (dm_syncers d1))
                         | None => None
                         end in
          Ok (with_last d1 (Some (cf_id c)), shared', main', tr')
    end.

(** ConfigurableDomain.cpp:588-596 isApplicableConfigurationValid. *)
Definition dm_applicable_valid (cs : list criterion) (p : pos) (d : domain) : outcome bool :=
  match dm_applicable cs d with Some c => cf_is_valid p c | None => Ok false end.

(** ConfigurableDomain.cpp:617-660 createConfiguration, 960-979 autoValidateConfiguration. *)
Definition dm_create_config (y : system) (name : str) (main : blackboard) (d : domain) : outcome (bool * domain) :=
  match dm_find name d with
  | Some _ => Ok (false, d)
  | None =>
      do areas <- omap_list (new_area y) (dm_elems d);
      let c := Config (dm_fresh d) name None areas in
      do c' <- match dm_configs d with
               | good :: _ => cf_validate_against good c
               | [] => cf_validate y main c
               end;
      Ok (true, with_fresh (with_configs d (dm_configs d ++ [c'])) (S (dm_fresh d)))
  end.

(** Replacement of the first configuration of that name. *)
Fixpoint upd_config {A} (name : str) (f : config -> outcome (A * config)) (l : list config) : outcome (A * list config) :=
  match l with
  | [] => Err
  | c :: r => if str_eqb (cf_path_name c) name then do x <- f c; Ok (fst x, snd x :: r)
              else do x <- upd_config name f r; Ok (fst x, c :: snd x)
  end.

(** Element.cpp:323-332 removeChild of the configuration found. *)
Fixpoint drop_config (name : str) (l : list config) : list config :=
  match l with
  | [] => []
  | c :: r => if str_eqb (cf_path_name c) name then r else c :: drop_config name r
  end.

(** ConfigurableDomain.cpp:662-685 deleteConfiguration. *)
Definition dm_delete_config (name : str) (d : domain) : bool * domain :=
  match dm_find name d with
  | None => (false, d)
  | Some c =>
      let d1 := if is_last d c then with_last d None else d in
      (true, with_configs d1 (drop_config name (dm_configs d1)))
  end.

(** Element.cpp:245-265 rename, for a configuration. *)
Definition dm_rename_config (name new : str) (d : domain) : bool * domain :=
  match dm_find name d with
  | None => (false, d)
  | Some c =>
      if existsb (fun k => negb (cf_id k =? cf_id c) && str_eqb (cf_name k) new) (dm_configs d) then (false, d)
      else match upd_config name (fun k => Ok (tt, Config (cf_id k) new (cf_rule k) (cf_areas k))) (dm_configs d) with
           | Ok (_, l) => (true, with_configs d l)
           | _ => (false, d)
           end
  end.

(** ConfigurableDomain.cpp:714-740 restoreConfiguration: result, domain, main blackboard, errors, trace. *)
Definition dm_restore (y : system) (name : str) (autosync : bool) (d : domain) (main : blackboard) (tr : list event)
  : outcome (bool * domain * blackboard * list nat * list event) :=
  match dm_find name d with
  | None => Ok (false, d, main, [], tr)
  | Some c =>
      do x <- cf_restore y (autosync && dm_aware d) c main tr;
      let '(ok, main', errs, tr') := x in
      let d' := with_last d (Some (cf_id c)) in
      if autosync && negb (dm_aware d)
      then let '(ok2, errs2, tr2) := sync_set y (dm_syncers d') main' tr' in Ok (ok && ok2, d', main', errs ++ errs2, tr2)
      else Ok (ok, d', main', errs, tr')
  end.

(** A command on a configuration: an error is reported when there is none of that name. *)
Definition dm_on_config (name : str) (f : config -> outcome (bool * config)) (d : domain) : outcome (bool * domain) :=
  match dm_find name d with
  | None => Ok (false, d)
  | Some _ => do x <- upd_config name f (dm_configs d); Ok (fst x, with_configs d (snd x))
  end.

(** ConfigurableDomain.cpp:742-758 saveConfiguration. *)
Definition dm_save (y : system) (name : str) (main : blackboard) : domain -> outcome (bool * domain) :=
  dm_on_config name (fun c => omap (pair true) (cf_save y main c)).

(** ConfigurableDomain.cpp:760-774 setElementSequence. *)
Definition dm_set_sequence (y : system) (name : str) (paths : list str) : domain -> outcome (bool * domain) :=
  dm_on_config name (fun c => Ok (cf_set_sequence y paths c)).

Definition with_rule (c : config) (r : option rule) : config := Config (cf_id c) (cf_name c) r (cf_areas c).

(** ConfigurableDomain.cpp:794-825 setApplicationRule, clearApplicationRule. *)
Definition dm_set_rule (cs : list criterion) (name text : str) : domain -> outcome (bool * domain) :=
  dm_on_config name (fun c => do x <- set_application_rule cs text (cf_rule c); Ok (fst x, with_rule c (snd x))).
Definition dm_clear_rule (name : str) : domain -> outcome (bool * domain) :=
  dm_on_config name (fun c => Ok (true, with_rule c clear_application_rule)).

(** ConfigurableDomain.cpp:846-853 getLastAppliedConfigurationName (None for "<none>"): the configuration at that address. *)
Definition dm_last_config (d : domain) : option config :=
  match dm_last d with
  | Some i => find (fun c => cf_id c =? i) (dm_configs d)
  | None => None
  end.

(** ConfigurableDomain.cpp:880-893 validate. *)
Definition dm_validate (y : system) (main : blackboard) (d : domain) : outcome domain :=
  omap (with_configs d) (omap_list (cf_validate y main) (dm_configs d)).

(** ConfigurableDomain.cpp:930-956 autoValidateAreas, 982-998 findValidDomainConfiguration. *)
Fixpoint find_valid (p : pos) (l : list config) : outcome (option config) :=
  match l with
  | [] => Ok None
  | c :: r => do v <- cf_is_valid p c; if v : bool then Ok (Some c) else find_valid p r
  end.
Definition dm_auto_validate_areas (p : pos) (d : domain) : outcome domain :=
  do o <- find_valid p (dm_configs d);
  match o with
  | None => Ok d
  | Some good =>
      omap (with_configs d)
        (omap_list (fun c => do v <- cf_is_valid p c;
                             if negb (cf_id c =? cf_id good) && negb v then cf_validate_area_against good p c else Ok c)
                   (dm_configs d))
  end.

(** ConfigurableDomain.cpp:913-926 autoValidateAll. *)
Fixpoint auto_validate_loop (ps : list pos) (d : domain) : outcome domain :=
  match ps with
  | [] => Ok d
  | p :: r => do d' <- dm_auto_validate_areas p d; auto_validate_loop r d'
  end.
Definition dm_auto_validate (d : domain) : outcome domain := auto_validate_loop (dm_elems d) d.

(** ConfigurableDomain.cpp:429-467 findConfigurationBlackboard: the configuration, and the associated element holding the
    one given. *)
Definition dm_find_blackboard (name : str) (p : pos) (d : domain) : option (config * list nat) :=
  match dm_find name d with
  | None => None
  | Some c => match find (fun e => pos_eqb p e || descendant_of p e) (dm_elems d) with
              | Some e => Some (c, e)
              | None => None
              end
  end.

(** ** All the domains *)

(** ConfigurableDomains: its children; the attachments of the elements; an address not yet used by a domain. *)
Record domains := Domains { ds_list : list domain; ds_att : attachments; ds_fresh : nat }.

Definition ds_find (name : str) (s : domains) : option domain :=
  find (fun d => str_eqb (dm_path_name d) name) (ds_list s).

(** Replacement of the first domain of that name. *)
Fixpoint upd_domain {A} (name : str) (f : domain -> outcome (A * domain)) (l : list domain) : outcome (A * list domain) :=
  match l with
  | [] => Err
  | d :: r => if str_eqb (dm_path_name d) name then do x <- f d; Ok (fst x, snd x :: r)
              else do x <- upd_domain name f r; Ok (fst x, d :: snd x)
  end.

(** A command on a domain that does not change the attachments. *)
Definition ds_on (name : str) (f : domain -> outcome (bool * domain)) (s : domains) : outcome (bool * domains) :=
  match ds_find name s with
  | None => Ok (false, s)
  | Some _ => do x <- upd_domain name f (ds_list s); Ok (fst x, Domains (snd x) (ds_att s) (ds_fresh s))
  end.

(** A command on a domain that may. *)
Definition ds_on_att (name : str) (f : domain -> attachments -> outcome (bool * (domain * attachments))) (s : domains)
  : outcome (bool * domains) :=
  match ds_find name s with
  | None => Ok (false, s)
  | Some _ =>
      do x <- upd_domain name (fun d => do z <- f d (ds_att s); Ok ((fst z, snd (snd z)), fst (snd z))) (ds_list s);
      Ok (fst (fst x), Domains (snd x) (snd (fst x)) (ds_fresh s))
  end.

(** ConfigurableDomains.cpp:116-130 createDomain. *)
Definition ds_create (name : str) (s : domains) : bool * domains :=
  match ds_find name s with
  | Some _ => (false, s)
  | None => (true, Domains (ds_list s ++ [new_domain (ds_fresh s) name]) (ds_att s) (S (ds_fresh s)))
  end.

Fixpoint drop_domain (name : str) (l : list domain) : list domain :=
  match l with
  | [] => []
  | d :: r => if str_eqb (dm_path_name d) name then r else d :: drop_domain name r
  end.

(** ConfigurableDomain.cpp:49-60 destructor: the elements forget the domain. *)
Definition forget (d : domain) (at_ : attachments) : attachments :=
  fold_left (fun acc p => detach p (dm_id d) acc) (dm_elems d) at_.

(** ConfigurableDomains.cpp:154-171 deleteDomain. *)
Definition ds_delete (name : str) (s : domains) : bool * domains :=
  match ds_find name s with
  | None => (false, s)
  | Some d => (true, Domains (drop_domain name (ds_list s)) (forget d (ds_att s)) (ds_fresh s))
  end.

(** ConfigurableDomains.cpp:173-177 deleteAllDomains, Element.cpp:401-411 removeChildren. *)
Definition ds_delete_all (s : domains) : domains :=
  Domains [] (fold_left (fun acc d => forget d acc) (rev (ds_list s)) (ds_att s)) (ds_fresh s).

(** ConfigurableDomains.cpp:179-191 renameDomain, Element.cpp:245-265 rename. *)
Definition ds_rename (name new : str) (s : domains) : bool * domains :=
  match ds_find name s with
  | None => (false, s)
  | Some d =>
      if existsb (fun k => negb (dm_id k =? dm_id d) && str_eqb (dm_name k) new) (ds_list s) then (false, s)
      else match upd_domain name (fun k => Ok (tt, with_name k new)) (ds_list s) with
           | Ok (_, l) => (true, Domains l (ds_att s) (ds_fresh s))
           | _ => (false, s)
           end
  end.

(** ConfigurableDomains.cpp:193-206 setSequenceAwareness. *)
Definition ds_set_aware (name : str) (b : bool) : domains -> outcome (bool * domains) :=
  ds_on name (fun d => Ok (true, with_aware d b)).

(** ConfigurableDomains.cpp:238-283 createConfiguration, deleteConfiguration, renameConfiguration. *)
Definition ds_create_config (y : system) (dom name : str) (main : blackboard) : domains -> outcome (bool * domains) :=
  ds_on dom (dm_create_config y name main).
Definition ds_delete_config (dom name : str) : domains -> outcome (bool * domains) :=
  ds_on dom (fun d => Ok (dm_delete_config name d)).
Definition ds_rename_config (dom name new : str) : domains -> outcome (bool * domains) :=
  ds_on dom (fun d => Ok (dm_rename_config name new d)).

(** ConfigurableDomains.cpp:300-316 split: the result of the domain is not used. *)
Definition ds_split (y : system) (dom : str) (p : pos) : domains -> outcome (bool * domains) :=
  ds_on_att dom (fun d a => do x <- dm_split y p d a; Ok (true, snd x)).

(** ConfigurableDomains.cpp:536-565 addConfigurableElementToDomain, removeConfigurableElementFromDomain. *)
Definition ds_add (y : system) (dom : str) (p : pos) (main : blackboard) : domains -> outcome (bool * domains) :=
  ds_on_att dom (dm_add y p (Some main)).
Definition ds_remove (y : system) (dom : str) (p : pos) : domains -> outcome (bool * domains) :=
  ds_on_att dom (dm_remove y p).

(** ConfigurableDomains.cpp:405-421 restoreConfiguration. *)
Definition ds_restore (y : system) (dom name : str) (autosync : bool) (s : domains) (main : blackboard) (tr : list event)
  : outcome (bool * domains * blackboard * list nat * list event) :=
  match ds_find dom s with
  | None => Ok (false, s, main, [], tr)
  | Some _ =>
      do x <- upd_domain dom
                (fun d => do z <- dm_restore y name autosync d main tr;
                          let '(ok, d', main', errs, tr') := z in Ok ((ok, main', errs, tr'), d'))
                (ds_list s);
      let '((ok, main', errs, tr'), l) := x in
      Ok (ok, Domains l (ds_att s) (ds_fresh s), main', errs, tr')
  end.

(** ConfigurableDomains.cpp:424-516 saveConfiguration, setElementSequence, setApplicationRule, clearApplicationRule. *)
Definition ds_save (y : system) (dom name : str) (main : blackboard) : domains -> outcome (bool * domains) :=
  ds_on dom (dm_save y name main).
Definition ds_set_sequence (y : system) (dom name : str) (paths : list str) : domains -> outcome (bool * domains) :=
  ds_on dom (dm_set_sequence y name paths).
Definition ds_set_rule (cs : list criterion) (dom name text : str) : domains -> outcome (bool * domains) :=
  ds_on dom (dm_set_rule cs name text).
Definition ds_clear_rule (dom name : str) : domains -> outcome (bool * domains) :=
  ds_on dom (dm_clear_rule name).

(** ConfigurableDomains.cpp:52-62 validate. *)
Definition ds_validate (y : system) (main : blackboard) (s : domains) : outcome domains :=
  omap (fun l => Domains l (ds_att s) (ds_fresh s)) (omap_list (dm_validate y main) (ds_list s)).

(** One pass of ConfigurableDomains.cpp:65-102 over the domains. *)
Fixpoint apply_pass (y : system) (cs : list criterion) (force : bool) (l : list domain) (shared : option (list nat))
  (main : blackboard) (tr : list event) : outcome (list domain * option (list nat) * blackboard * list event) :=
  match l with
  | [] => Ok ([], shared, main, tr)
  | d :: r =>
      do x <- dm_apply y cs force d shared main tr;
      let '(d', shared1, main1, tr1) := x in
      do z <- apply_pass y cs force r shared1 main1 tr1;
      let '(r', shared2, main2, tr2) := z in
      Ok (d' :: r', shared2, main2, tr2)
  end.

(** ConfigurableDomains.cpp:65-102 apply.  [ss]: the syncers of the subsystems to resynchronise. *)
Definition ds_apply (y : system) (cs : list criterion) (force : bool) (ss : list nat) (s : domains) (main : blackboard)
  (tr : list event) : outcome (domains * blackboard * list event) :=
  do x <- apply_pass y cs force (ds_list s) (Some ss) main tr;
  let '(l1, shared, main1, tr1) := x in
  let collected := match shared with Some c => c | None => [] end in
  let '(_, _, tr2) := sync_set y collected main1 tr1 in
  do z <- apply_pass y cs force l1 None main1 tr2;
  let '(l2, _, main2, tr3) := z in
  Ok (Domains l2 (ds_att s) (ds_fresh s), main2, tr3).

(** ConfigurableDomains.cpp:567-592 findConfigurationBlackboard: domain, configuration, associated element. *)
Definition ds_find_blackboard (dom name : str) (p : pos) (s : domains) : option (domain * config * list nat) :=
  match ds_find dom s with
  | None => None
  | Some d =>
      if belongs_to (ds_att s) p (dm_id d) then
        match dm_find_blackboard name p d with
        | Some (c, e) => Some (d, c, e)
        | None => None
        end
      else None
  end.

(** ** Rogue elements *)

(** ConfigurableElementAggregator.cpp:47-83 doAggregate: whether the element matches as a whole, and the elements added to the
    list.  [ok]: the aggregation criterion, on the position of an element. *)
Fixpoint aggregate (ok : list nat -> bool) (e : elem) (p : pos) : bool * list (list nat) :=
  match e with
  | Elem _ _ cs =>
      if ok p then
        let (all, found) :=
          (fix go (cs : list elem) (i : nat) : bool * list (list nat) :=
             match cs with
             | [] => (true, [])
             | c :: r => let (b, l) := aggregate ok c (p ++ [i]) in let (b', l') := go r (S i) in (b && b', l ++ l')
             end) cs 0 in
        if all then (true, [p]) else (false, found)
      else (false, [])
  end.

(** ConfigurableElement.cpp:518-521 hasNoDomainAssociated. *)
Definition no_domain (at_ : attachments) (p : pos) : bool :=
  match attached_to at_ p with [] => true | _ => false end.

(** ConfigurableElement.cpp:469-488 listRogueElements. *)
Definition rogue_elements (at_ : attachments) (e : elem) (p : pos) : list pos := snd (aggregate (no_domain at_) e p).

(** ConfigurableElement.cpp:490-508 isRogue. *)
Definition is_rogue (at_ : attachments) (e : elem) (p : pos) : bool :=
  match belonging_domains at_ p with
  | [] => match rogue_elements at_ e p with [q] => pos_eqb q p | _ => false end
  | _ => false
  end.

(** ConfigurableElement.cpp:523-546 hasNoValidDomainAssociated.  The abort of getAreaConfiguration counts as "not valid" here;
    it is proved unreachable. *)
Definition no_valid_domain (cs : list criterion) (s : domains) (p : pos) : bool :=
  negb (existsb (fun id => existsb (fun d => (dm_id d =? id) &&
                                             match dm_applicable_valid cs p d with Ok v => v | _ => false end) (ds_list s))
                (attached_to (ds_att s) p)).

(** HardwareBackSynchronizer.cpp:36-44: the elements to read back from the hardware. *)
Definition back_sync_elements (cs : list criterion) (s : domains) (e : elem) (p : pos) : list pos :=
  snd (aggregate (no_valid_domain cs s) e p).
