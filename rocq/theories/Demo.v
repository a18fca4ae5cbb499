(** A small system, used in the examples next to the theorems on domains and on the manager. *)
From Coq Require Import List Arith ZArith Bool Ascii String Lia.
From Verif Require Import Base TextModel ParamTypeModel BlackboardModel BitModel ArrayModel TreeModel TreeSpec TreeProofs CriterionModel RuleModel
  SyncModel SyncProofs DomainModel DomainSpec MgrModel MgrSpec.
Import ListNotations.
Local Open Scope nat_scope.

(** Two subsystems.  The first holds a block of two integers and a boolean array, a bit block and a string: one syncer for the
    block, one for the bit block, one for the string.  The second holds one integer and is synchronised as a whole. *)
Definition demo_u16 := KdParam (PInt false 2 5 1000).
Definition demo_tree : elem :=
  Elem (lit "Sys") KdSystem
    [Elem (lit "Sub") KdSubsystem
       [Elem (lit "blk") KdBlock
          [Elem (lit "a") demo_u16 []; Elem (lit "arr") (KdArray PBool 3) []; Elem (lit "b") demo_u16 []];
        Elem (lit "bits") (KdBitBlock 1)
          [Elem (lit "low") (KdBit (BitType 0 3 7 1)) []; Elem (lit "high") (KdBit (BitType 4 2 3 1)) []];
        Elem (lit "str") (KdString 4) []];
     Elem (lit "Aux") KdSubsystem [Elem (lit "x") demo_u16 []]].

Definition demo_own (p : list nat) : option nat :=
  match p with [0; 0] => Some 10 | [0; 1] => Some 11 | [0; 2] => Some 12 | [1] => Some 20 | _ => None end.

Definition demo : system := Sys demo_tree demo_own (fun _ _ => true).

(** The same one with a syncer, the one of the bit block, that always fails. *)
Definition demo_faulty : system := Sys demo_tree demo_own (fun _ s => negb (s =? 11)).

(** All the positions of the structure. *)
Fixpoint positions (e : elem) : list (list nat) :=
  match e with
  | Elem _ _ cs => [] :: (fix go (cs : list elem) (i : nat) : list (list nat) :=
                            match cs with [] => [] | c :: r => map (cons i) (positions c) ++ go r (S i) end) cs 0
  end.

Lemma positions_In : forall e p c, elem_at e p = Some c -> In p (positions e).
Proof.
  intros e. induction e as [nm k cs IH] using elem_ind_nested. intros p c H. destruct p as [|i p]; [simpl; auto|]. right. simpl in H.
  destruct (nth_error cs i) as [x|] eqn:E; [|discriminate]. rewrite Forall_forall in IH.
  pose proof (IH x (nth_error_In _ _ E) p c H) as I. clear IH H k nm.
  assert (forall b, In ((b + i) :: p) ((fix go (cs : list elem) (i : nat) : list (list nat) :=
                            match cs with [] => [] | c :: r => map (cons i) (positions c) ++ go r (S i) end) cs b)) as G.
  { revert i E. induction cs as [|y cs IHc]; intros i E b; [destruct i; discriminate|]. destruct i; simpl in E.
    - inversion E; subst y. apply in_or_app. left. rewrite Nat.add_0_r. apply in_map. auto.
    - apply in_or_app. right. specialize (IHc i E (S b)). replace (b + S i) with (S b + i) by lia. auto. }
  apply (G 0).
Qed.

Definition bit_fields_apart (root : elem) (p q : list nat) : bool :=
  match elem_at root p, elem_at root q with
  | Some e, Some f =>
      match e_kind e, e_kind f with
      | KdBit t, KdBit u => (bt_pos t + bt_size t <=? bt_pos u)%Z || (bt_pos u + bt_size u <=? bt_pos t)%Z
      | _, _ => true
      end
  | _, _ => true
  end.

Fixpoint same_pos (p q : list nat) : bool := match p, q with [], [] => true | i :: p, j :: q => (i =? j) && same_pos p q | _, _ => false end.

Lemma same_pos_eq : forall p q, same_pos p q = true -> p = q.
Proof.
  induction p as [|i p IH]; intros [|j q] H; simpl in H; try discriminate; auto. apply andb_true_iff in H. destruct H as [H1 H2].
  apply Nat.eqb_eq in H1. rewrite (IH q H2). congruence.
Qed.

(** A check of [fields_apart] by computation. *)
Definition check_fields (root : elem) : bool :=
  forallb (fun p => forallb (fun q => same_pos p q || negb (same_pos (removelast p) (removelast q)) || bit_fields_apart root p q) (positions root)) (positions root).

Lemma same_pos_refl : forall p, same_pos p p = true.
Proof. induction p as [|i p IH]; simpl; auto. rewrite Nat.eqb_refl, IH. auto. Qed.

Lemma check_fields_ok : forall root, check_fields root = true -> fields_apart root.
Proof.
  intros root H r i j e f t u N E1 E2 K1 K2. unfold check_fields in H. rewrite forallb_forall in H.
  specialize (H _ (positions_In _ _ _ E1)). rewrite forallb_forall in H. specialize (H _ (positions_In _ _ _ E2)).
  rewrite !removelast_last, same_pos_refl in H. simpl in H. rewrite orb_false_r in H. apply orb_true_iff in H. destruct H as [H|H].
  - apply same_pos_eq in H. apply app_inj_tail in H. tauto.
  - unfold bit_fields_apart in H. rewrite E1, E2, K1, K2 in H. apply orb_true_iff in H. destruct H as [H|H]; apply Z.leb_le in H; lia.
Qed.

Lemma demo_structure : forall hw, structure_ok (Sys demo_tree demo_own hw).
Proof. intros hw. split; [vm_compute; reflexivity|]. apply check_fields_ok. vm_compute. reflexivity. Qed.

Lemma demo_own_cases : forall p s, demo_own p = Some s -> In p [[0; 0]; [0; 1]; [0; 2]; [1]].
Proof.
  intros p s H. destruct p as [|[|[|i]] [|[|[|[|j]]] [|k p]]]; try discriminate; simpl; auto.
Qed.

Lemma demo_one_syncer : forall hw, one_syncer (Sys demo_tree demo_own hw).
Proof.
  intros hw p q s t Hp Hq [r E]. cbn [sy_own] in *. apply demo_own_cases in Hp. apply demo_own_cases in Hq. subst q.
  simpl in Hp. destruct Hp as [<-|[<-|[<-|[<-|[]]]]]; simpl in Hq; repeat destruct Hq as [Hq|Hq]; try discriminate; try contradiction;
    destruct r; try discriminate; rewrite ?app_nil_r; auto.
Qed.

Lemma demo_ok : forall hw, system_ok (Sys demo_tree demo_own hw).
Proof. intros hw. split; [apply demo_structure|apply demo_one_syncer]. Qed.

(** The criteria: one exclusive, one inclusive. *)
Definition demo_crits : list criterion :=
  [cr_new (lit "Mode") (CritType false [(lit "Call", 1%Z); (lit "Normal", 2%Z)]);
   cr_new (lit "Devices") (CritType true [(lit "Ear", 1%Z); (lit "HS", 2%Z)])].

(** The commands that build two domains: the first one, on the block, has two configurations; the second, sequence aware, on
    the bit block and the string, has one. *)
Definition demo_cmds : list cmd :=
  [CTuning true [];
   CCreateDomain (lit "D1"); CAddElement (lit "D1") (lit "/Sys/Sub/blk");
   CSetParameter (lit "/Sys/Sub/blk/a") (lit "100");
   CCreateConfig (lit "D1") (lit "Call"); CCreateConfig (lit "D1") (lit "Other");
   CSetParameter (lit "/Sys/Sub/blk/a") (lit "200"); CSetParameter (lit "/Sys/Sub/blk/arr/1") (lit "1");
   CSave (lit "D1") (lit "Other");
   CSetRule (lit "D1") (lit "Call") (lit "All{Mode Is Call}"); CSetRule (lit "D1") (lit "Other") (lit "All{}");
   CCreateDomain (lit "D2"); CSequenceAware (lit "D2") true;
   CAddElement (lit "D2") (lit "/Sys/Sub/bits"); CAddElement (lit "D2") (lit "/Sys/Sub/str");
   CSetParameter (lit "/Sys/Sub/bits/high") (lit "2");
   CCreateConfig (lit "D2") (lit "On"); CSetRule (lit "D2") (lit "On") (lit "Any{Devices Includes HS}");
   CSetParameter (lit "/Sys/Sub/bits/high") (lit "1");
   CTuning false []].

Definition demo_start : mgr := Mgr (Domains [] [] 0) (initial_blackboard demo_tree) false true true false false demo_crits [].
Definition demo_after (y : system) (cmds : list cmd) : mgr :=
  match run y demo_start cmds with Ok (_, m) => m | _ => demo_start end.
Definition demo_state : mgr := demo_after demo demo_cmds.

Lemma demo_runs : run demo demo_start demo_cmds = Ok (repeat true 20, demo_state).
Proof. vm_compute. reflexivity. Qed.

Lemma demo_crits_ok : crits_ok demo_crits.
Proof.
  intros i k H. destruct i as [|[|i]]; try (destruct i; discriminate); inversion H; subst; simpl;
    repeat constructor; simpl; intuition discriminate.
Qed.

Lemma no_domains_ok : forall y, domains_ok y (Domains [] [] 0).
Proof.
  intros y. constructor; simpl; try constructor; try (intros; contradiction).
  all: try (intros []; fail); try (intros [? [[] _]]; fail); try (intros [? [? [[] _]]]; fail).
Qed.

Lemma demo_started : started demo demo_start.
Proof.
  exists true, demo_crits, (Domains [] [] 0), (initial_blackboard demo_tree). split; [|vm_compute; reflexivity].
  split; [exact demo_crits_ok|]. split; [apply no_domains_ok|]. split; [intros d c r []|reflexivity].
Qed.

Lemma demo_faulty_started : started demo_faulty demo_start.
Proof.
  exists true, demo_crits, (Domains [] [] 0), (initial_blackboard demo_tree). split; [|vm_compute; reflexivity].
  split; [exact demo_crits_ok|]. split; [apply no_domains_ok|]. split; [intros d c r []|reflexivity].
Qed.

Lemma demo_reachable : reachable demo demo_state.
Proof. exists demo_start, demo_cmds, (repeat true 20). split; [exact demo_started|exact demo_runs]. Qed.

