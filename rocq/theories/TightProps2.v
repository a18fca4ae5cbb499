(** More about the test platform and the TEST subsystem. *)
From Coq Require Import List Arith ZArith Bool Ascii String Lia Permutation.
From Verif Require Import Base BaseProofs TextModel TextSpec TextProofs ParamTypeModel ParamTypeSpec CriterionModel CriterionSpec CriterionProofs TreeModel TreeSpec SyncModel DomainModel MgrModel LoadModel LoadSpec RemoteModel CommandModel CapiModel CapiSpec CapiProofs
  PlatModel PlatSpec PlatProofs PlatProps BlackboardModel ObjModel ObjSpec ObjProofs ObjProps.
Import ListNotations.
Local Open Scope nat_scope.

(** A new platform: no criterion, not started, listening; missing subsystems and refused settings are failures, the schemas are not
    checked. *)
Theorem C71_new : forall su, criteria p_new = [] /\ pl_started p_new = false /\ pl_open p_new = true /\ pl_loaded p_new = false
  /\ asks su p_new "getMissingSubsystemPolicy" [] = Ok (Answer (lit "true") true, p_new)
  /\ asks su p_new "getFailedSettingsLoadPolicy" [] = Ok (Answer (lit "true") true, p_new)
  /\ asks su p_new "getValidateSchemasOnStart" [] = Ok (Answer (lit "false") true, p_new).
Proof. intros su. repeat split; run_entry; reflexivity. Qed.
Print Assumptions C71_new.

Lemma add_states_app : forall incl a b i t t', add_states incl i a t = Ok (inl t') -> add_states incl i (a ++ b) t = add_states incl (i + Z.of_nat (List.length a)) b t'.
Proof.
  intros incl. induction a as [|v a IH]; intros b i t t' H; cbn [app add_states List.length] in *.
  - injection H as <-. rewrite Z.add_0_r. reflexivity.
  - destruct (incl && (31 <=? i)%Z); [discriminate|]. destruct (cty_add t (if incl then Z.shiftl 1 i else to_ctype t_int32 i) v); try discriminate.
    rewrite (IH b _ _ _ H). f_equal. lia.
Qed.

Lemma power_land : forall i, (0 <= i)%Z -> Z.land (2 ^ i) (2 ^ i - 1) = 0%Z.
Proof. intros i H. replace (2 ^ i - 1)%Z with (Z.ones i) by (rewrite Z.ones_equiv; lia). rewrite Z.land_ones by auto. apply Z.mod_same. pose proof (Z.pow_pos_nonneg 2 i ltac:(lia) H). lia. Qed.

Lemma hex_text_spec : forall v, (0 <= v < 2 ^ 32)%Z -> exists ds, Forall2 ObjSpec.lower_hex (hex_text v) ds /\ ds <> [] /\ positional 16 ds = v.
Proof.
  intros v R. unfold hex_text. rewrite Z.mod_small by exact R. destruct (print_base_spec 16 v ltac:(lia) ltac:(lia)) as [ds [H1 [H2 [H3 H4]]]]. exists ds. split; [|split; [exact H2|apply H4]].
  clear - H1. induction H1 as [|c d s ds G H IH]; cbn [map]; constructor; auto. apply good16 in G. unfold ObjSpec.lower_hex, ParamTypeModel.lower_hex. pose proof (bval_range c).
  destruct G as [G|[G|G]].
  - left. destruct G as [G1 G2]. destruct (Z.leb_spec 65 (bval c)); cbn [andb]; [lia|]. split; auto.
  - right. destruct (Z.leb_spec (bval c) 70); [lia|]. rewrite andb_false_r. auto.
  - right. destruct (Z.leb_spec 65 (bval c)); [|lia]. destruct (Z.leb_spec (bval c) 70); [|lia]. cbn [andb]. split; [lia|]. rewrite bval_byte_of, Z.mod_small by lia. lia.
Qed.

(** A list with a state given twice (or "none" in an inclusive criterion) is refused for the first such state, with its number in the
    text, and nothing changes. *)
Theorem C71_rejected : forall (incl : bool) su p n a l b, (if incl then List.length a < 31 else (Z.of_nat (List.length a) < 2 ^ 31 - 1)%Z) ->
  NoDup a -> (incl = true -> ~ In (lit "none") a) -> In l a \/ incl = true /\ l = lit "none" ->
  exists h ds, asks su p (list_command incl) (n :: a ++ l :: b)
      = Ok (Answer (lit "Unable to add value: " ++ l ++ lit ": Rejecting value pair association (literal already present): 0x" ++ h ++ lit " - " ++ l ++ lit " for Selection Criterion Type ") false, p)
    /\ Forall2 ObjSpec.lower_hex h ds /\ positional 16 ds = (if incl then 2 ^ Z.of_nat (List.length a) else Z.of_nat (List.length a))%Z.
Proof.
  intros incl su p n a l b L Nd Nn Hl. set (c := CCrit (Some n) incl (Some a)).
  assert (Z.of_nat (List.length a) <= 2 ^ 31 - 1)%Z as L' by (destruct incl; lia).
  assert (makeable c) as M by (exists n, a; split; [reflexivity|split; [reflexivity|split; [exact Nd|intros E; cbn [cc_incl c] in E; rewrite E in *; split; [lia|auto]]]]).
  pose proof (described_new c n a eq_refl eq_refl L') as D. cbn [cc_incl c] in D.
  pose proof (add_states_values incl a 0 (cty_new incl) ltac:(lia) ltac:(intros ->; lia)) as A.
  destruct (add_states incl 0 a (cty_new incl)) as [[t|e]| | |] eqn:Ea; try (rewrite A in D; contradiction); try contradiction. rewrite A in D.
  destruct D as [[_ [Di [vs [Dv Dm]]]] _]. injection Dv as <-. cbn [cr_new cr_type cc_incl c] in Di, Dm.
  assert (exists w, map_find l (cty_map t) = Some w) as [w Fw].
  { destruct Hl as [I|[Ei ->]].
    - apply In_nth_error in I. destruct I as [i I]. exists (number incl i). apply Dm. left. eauto.
    - exists 0%Z. apply Dm. right. auto. }
  set (v := (if incl then 2 ^ Z.of_nat (List.length a) else Z.of_nat (List.length a))%Z).
  assert (0 <= v < 2 ^ 31)%Z as Rv.
  { unfold v. destruct incl; [|lia]. split; [apply Z.pow_nonneg; lia|]. apply Z.pow_lt_mono_r; lia. }
  assert ((if incl then Z.shiftl 1 (Z.of_nat (List.length a)) else to_ctype t_int32 (Z.of_nat (List.length a))) = v) as Ev.
  { unfold v in *. destruct incl; [apply Z.shiftl_1_l|]. apply int_id. unfold is_int. lia. }
  assert (incl && ((v =? 0)%Z || negb (Z.land v (v - 1) =? 0)%Z) = false) as Pw.
  { destruct incl; [|reflexivity]. unfold v. rewrite power_land by lia. cbn [negb Z.eqb andb]. rewrite orb_false_r. apply Z.eqb_neq. pose proof (Z.pow_pos_nonneg 2 (Z.of_nat (List.length a)) ltac:(lia) ltac:(lia)). lia. }
  assert (add_states incl 0 (a ++ l :: b) (cty_new incl) = Ok (inr (lit "Unable to add value: " ++ l ++ lit ": " ++ pair_error t v l))) as Es.
  { rewrite (add_states_app incl a (l :: b) 0 _ _ Ea). cbn [add_states]. rewrite Z.add_0_l.
    assert (incl && (31 <=? Z.of_nat (List.length a))%Z = false) as -> by (destruct incl; [apply Z.leb_gt; lia|reflexivity]). rewrite Ev.
    unfold cty_add. rewrite Di. cbn [cc_incl c]. rewrite Pw. assert (incl && (v =? - 2 ^ 31)%Z = false) as -> by (destruct (Z.eqb_spec v (- 2 ^ 31)); [lia|apply andb_false_r]). rewrite Fw. reflexivity. }
  assert (pair_error t v l = lit "Rejecting value pair association (literal already present): 0x" ++ hex_text v ++ lit " - " ++ l ++ lit " for Selection Criterion Type ") as Pe.
  { unfold pair_error. rewrite Di. cbn [cc_incl c]. rewrite Pw, Fw. reflexivity. }
  destruct (hex_text_spec v ltac:(lia)) as [ds [H1 [_ H3]]]. exists (hex_text v), ds. split; [|split; [exact H1|exact H3]].
  rewrite Pe in Es.
  replace (n :: a ++ l :: b) with (n :: hd l a :: tl (a ++ l :: b)) by (destruct a; reflexivity).
  assert (asks su p (list_command incl) (n :: hd l a :: tl (a ++ l :: b)) = do x <- create incl n (a ++ l :: b) p; Ok (match fst x with RDone => Answer (lit "Done") true | RSucceeded t => Answer t true | RUsage => Answer (pusage (entry_of (list_command incl) 2 "<name> <stateList>" "" (h_create_list incl))) false | RFailed t => Answer t false end, snd x)) as ->.
  { destruct incl; cbn [list_command]; run_entry; unfold h_create_list; cbn [arg nth_error obind skipn]; replace (hd l a :: tl (a ++ l :: b)) with (a ++ l :: b) by (destruct a; reflexivity); reflexivity. }
  unfold create. rewrite Es. cbn [obind fst snd]. f_equal.
Qed.
Print Assumptions C71_rejected.

Example C71_rejected_nonvacuous : exists su p, asks su p (list_command true) [lit "D"; lit "a"; lit "b"; lit "c"; lit "d"; lit "e"; lit "b"; lit "f"]
  = Ok (Answer (lit "Unable to add value: b: Rejecting value pair association (literal already present): 0x20 - b for Selection Criterion Type ") false, p).
Proof. exists (Around (fun _ _ => LNothing) [] []), p_new. vm_compute. reflexivity. Qed.

(** Sending to a file that opens succeeds and leaves the memory as it was. *)
Theorem C77_sent : forall size blocks alive f e pre post, size <= 4 -> Forall (fun b => List.length b = size) blocks -> test_alive alive = true ->
  obj_sync e (List.length pre) (test_object TBinary size (List.length blocks) alive true f) false (pre ++ List.concat blocks ++ post) = Ok (true, pre ++ List.concat blocks ++ post).
Proof.
  intros size blocks alive f e pre post L F A. destruct (C77_written size blocks L F) as [ts [_ W]]. specialize (W pre post).
  unfold obj_sync, test_object. cbn [ob_alive ob_send]. rewrite A.
  assert (forall (P : prog str) bb at_ t bb', run P bb at_ = Ok (t, bb') -> run (pbind P (fun _ => PEnd true)) bb at_ = Ok (true, bb')) as R.
  { induction P as [a| | |k q IH|bs q IH]; intros bb at_ t bb' H; cbn [run pbind] in *; try discriminate.
    - injection H as <- <-. reflexivity.
    - destruct (bb_read bb k at_); try discriminate. cbn [obind] in *. eauto.
    - destruct (bb_write bb bs at_); try discriminate. cbn [obind] in *. eauto. }
  rewrite (R _ _ _ _ _ W). reflexivity.
Qed.
Print Assumptions C77_sent.

Example C77_sent_nonvacuous : test_alive (Some (lit "true")) = true /\ Forall (fun b : list byte => List.length b = 2) [lit "ab"; lit "cd"].
Proof. split; [reflexivity|]. repeat constructor. Qed.
