(** A small system with all the types of parameters, used in the examples about XML documents. *)
From Coq Require Import List Arith ZArith QArith Bool Ascii String Lia.
From Verif Require Import Base TextModel ParamTypeModel BlackboardModel BitModel ArrayModel TreeModel TreeSpec TreeProofs CriterionModel RuleModel
  SyncModel SyncProofs DomainModel DomainSpec MgrModel MgrSpec Demo.
Import ListNotations.
Local Open Scope nat_scope.

Definition xd_enum : ptype := PEnum 1 [(lit "off", 0%Z); (lit "on", 5%Z)].
Definition xd_signed : ptype := PEnum 1 [(lit "none", 0%Z); (lit "minus", (-3)%Z)].
Definition xd_tree : elem :=
  Elem (lit "Sys") KdSystem
    [Elem (lit "Sub") KdSubsystem
       [Elem (lit "mix") KdComponent
          [Elem (lit "a") (KdParam (PInt true 2 (-50) 50)) [];
           Elem (lit "fx") (KdParam (PFix 2 3 4)) [];
           Elem (lit "en") (KdParam xd_enum) [];
           Elem (lit "fl") (KdParam (PFloat (-100) 100)) [];
           Elem (lit "ens") (KdArray xd_enum 2) []];
        Elem (lit "neg") (KdParam xd_signed) [];
        Elem (lit "bits") (KdBitBlock 1)
          [Elem (lit "low") (KdBit (BitType 0 3 7 1)) []; Elem (lit "high") (KdBit (BitType 4 2 3 1)) []];
        Elem (lit "str") (KdString 4) []]].

Definition xd_own (p : list nat) : option nat := match p with [0] => Some 3 | _ => None end.
Definition xd : system := Sys xd_tree xd_own (fun _ _ => true).

Definition xd_start : mgr := Mgr (Domains [] [] 0) (initial_blackboard xd_tree) false true true false false demo_crits [].
Definition xd_after (cmds : list cmd) : mgr := match run xd xd_start cmds with Ok (_, m) => m | _ => xd_start end.

Definition xd_sets : list cmd :=
  [CTuning true [];
   CSetParameter (lit "/Sys/Sub/mix/a") (lit "-7"); CSetParameter (lit "/Sys/Sub/mix/fx") (lit "1.5");
   CSetParameter (lit "/Sys/Sub/mix/en") (lit "on"); CSetParameter (lit "/Sys/Sub/mix/fl") (lit "0.25");
   CSetParameter (lit "/Sys/Sub/mix/ens") (lit "on off"); CSetParameter (lit "/Sys/Sub/neg") (lit "minus");
   CSetParameter (lit "/Sys/Sub/bits/high") (lit "2"); CSetParameter (lit "/Sys/Sub/str") (lit "abc")].
Definition xd_state : mgr := xd_after xd_sets.

Lemma xd_ok : system_ok xd.
Proof.
  split.
  - split; [vm_compute; reflexivity|]. apply check_fields_ok. vm_compute. reflexivity.
  - intros p q s t Hp Hq _. cbn [sy_own xd xd_own] in *. destruct p as [|[|i] [|j p]]; try discriminate. destruct q as [|[|i] [|j q]]; try discriminate. auto.
Qed.

Lemma xd_started : started xd xd_start.
Proof.
  exists true, demo_crits, (Domains [] [] 0), (initial_blackboard xd_tree). split; [|vm_compute; reflexivity].
  split; [exact demo_crits_ok|]. split; [apply no_domains_ok|]. split; [intros d c r []|reflexivity].
Qed.

(** States reached by commands that run. *)
Definition all_ok (cmds : list cmd) : bool := match run xd xd_start cmds with Ok (bs, _) => forallb (fun b => b) bs | _ => false end.
Lemma xd_reachable : forall cmds, all_ok cmds = true -> reachable xd (xd_after cmds).
Proof.
  intros cmds H. unfold all_ok in H. unfold xd_after. destruct (run xd xd_start cmds) as [[bs m]| | |] eqn:E; try discriminate.
  exists xd_start, cmds, bs. split; [exact xd_started|auto].
Qed.
