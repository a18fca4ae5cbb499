(** Proofs about the texts that the remote commands answer: imports, documents, bytes, help, properties. *)
From Coq Require Import List Arith ZArith Bool Ascii String Sorted Permutation Lia.
From Verif Require Import Base BaseProofs TextModel TextSpec TextProofs ParamTypeModel BitModel BlackboardModel BlackboardProofs TreeModel TreeSpec TreeProofs CriterionModel RuleModel SyncModel
  DomainModel DomainSpec DomainProofs MgrModel MgrSpec MgrProofs MgrSkel MgrProps XmlModel DomXmlModel StrucModel RemoteModel CommandModel CommandSpec CommandProofs CommandProps
  ReportModel ReportSpec ReportProofs.
Import ListNotations.
Local Open Scope nat_scope.

(** ** Imports *)

Lemma imported : forall y ev m name args i b m', imports name args i -> ev_import ev i m = Ok (b, m') ->
  exists t, process y ev m (Request (lit name) args) = Ok (Answer t b, m') /\ (b = true -> t = lit "Done").
Proof.
  intros y ev m name args i b m' I H. destruct I; known; unfold one_arg, plan_import_domain; cbn [execute]; unfold done; rewrite H; cbn [obind fst snd];
    (destruct b; [exists (lit "Done"); auto|eexists; split; [reflexivity|discriminate]]).
Qed.

Lemma import_refused : forall y ev m name s o r, In name ["importDomainWithSettingsXML"; "setDomainWithSettingsXML"]%string -> o <> lit "overwrite" ->
  refuses y ev m name (s :: o :: r).
Proof.
  intros y ev m name s o r I No. unfold refuses. assert (str_eqb o (lit "overwrite") = false) as E by (destruct (str_eqb o (lit "overwrite")) eqn:X; auto; apply str_eqb_eq in X; congruence).
  cbn [In] in I. destruct I as [<-|[<-|[]]].
  - eexists. rewrite (process_known y ev m (lit "importDomainWithSettingsXML") (s :: o :: r) 61 _ AUsage eq_refl eq_refl eq_refl); [reflexivity|cbn [en_min List.length]; lia|].
    cbn [en_plan]. unfold plan_import_domain. cbn [List.length Nat.ltb Nat.leb arg nth_error obind]. rewrite E. reflexivity.
  - eexists. rewrite (process_known y ev m (lit "setDomainWithSettingsXML") (s :: o :: r) 65 _ AUsage eq_refl eq_refl eq_refl); [reflexivity|cbn [en_min List.length]; lia|].
    cbn [en_plan]. unfold plan_import_domain. cbn [List.length Nat.ltb Nat.leb arg nth_error obind]. rewrite E. reflexivity.
Qed.

(** ** Bytes *)

Lemma byte_text_digits : forall b, byte_text b = lit "0x" ++ [hex_digit (nat_of_ascii b / 16); hex_digit (nat_of_ascii b mod 16)].
Proof. intros [b0 b1 b2 b3 b4 b5 b6 b7]. destruct b0, b1, b2, b3, b4, b5, b6, b7; vm_compute; reflexivity. Qed.

Lemma byte_text_read : forall b, convertTo (CType false 1) (byte_text b) = Some (bval b).
Proof. intros [b0 b1 b2 b3 b4 b5 b6 b7]. destruct b0, b1, b2, b3, b4, b5, b6, b7; vm_compute; reflexivity. Qed.

(** ** Help *)

Lemma help_lines : text_lines (map (fun x => usage (fst x) ++ repeat " "%char (max_usage + 5 - List.length (usage (fst x))) ++ lit "=> " ++ lit (snd x)) (combine table descriptions)) help_text.
Proof.
  unfold help_text. generalize (combine table descriptions). induction l as [|x l IH]; cbn [map flat_map]; [constructor|].
  match goal with |- text_lines (?a :: _) (?b ++ _) => replace b with (a ++ nl) by (rewrite <- !app_assoc; reflexivity) end. rewrite <- app_assoc. apply tl_line. exact IH.
Qed.

(** ** Properties *)

Lemma property_text : forall name v, property (lit name) v = lines (optional name v).
Proof. intros name [|c v]; [reflexivity|]. cbn [property optional]. rewrite lines_cons, <- !app_assoc. reflexivity. Qed.

Lemma scalar_text : forall u t, (forall sg b lo hi, t = PInt sg b lo hi -> b <> 1) -> ptype_properties u t = lines (scalar_shown u t).
Proof.
  intros u t N. unfold ptype_properties, scalar_shown. rewrite property_text, !lines_app. f_equal. cbn [app]. rewrite lines_cons. replace (lines []) with (@nil ascii) by reflexivity.
  rewrite <- !app_assoc. cbn [app]. f_equal. f_equal. f_equal. f_equal. destruct t as [sg b lo hi| |b ps|b n f|lo hi]; try reflexivity.
  - unfold print_bound. replace (b =? 1) with false by (symmetry; apply Nat.eqb_neq; apply (N sg b lo hi); auto). rewrite !lines_cons. destruct sg; rewrite <- !app_assoc; try reflexivity.
  - assert (forall l, flat_map (fun x : str * Z => ascii_of_nat 9 :: lit "Literal: """ ++ fst x ++ lit """, Numerical: " ++ print_dec (snd x) ++ nl) l
      = lines (map (fun x => ascii_of_nat 9 :: lit "Literal: """ ++ fst x ++ lit """, Numerical: " ++ print_dec (snd x)) l)) as G.
    { induction l as [|x l IH]; cbn [map flat_map]; [reflexivity|]. rewrite lines_cons, IH. cbn [app]. rewrite <- !app_assoc. reflexivity. }
    rewrite lines_cons, G. reflexivity.
  - rewrite !lines_cons, <- !app_assoc. reflexivity.
  - rewrite !lines_cons, <- !app_assoc. reflexivity.
Qed.

Lemma kind_text_shown : forall dt k p, not_a_character k ->
  kind_properties dt k p = lines (match k with KdSystem | KdSubsystem => [] | _ => optional "Description" (dt_type_desc dt p) end ++ kind_shown (dt_unit dt p) k).
Proof.
  intros dt k p N. unfold kind_properties. rewrite lines_app. f_equal; [destruct k; rewrite ?property_text; reflexivity|].
  destruct k; try reflexivity; cbn [kind_shown].
  - rewrite !lines_cons, <- !app_assoc. reflexivity.
  - apply scalar_text. intros sg b lo hi ->. exact N.
  - rewrite lines_app, lines_cons, scalar_text by (intros sg b lo hi ->; exact N). rewrite <- !app_assoc. reflexivity.
  - rewrite lines_cons, <- !app_assoc. reflexivity.
Qed.

Lemma show_properties : forall os y ev m a args p e, locate (sy_root y) a = Some p -> elem_at (sy_root y) p = Some e -> not_a_character (e_kind e) ->
  exists t, answers y (reporting os y ev) m "showProperties" (a :: args) t
    /\ text_lines ([lit "Kind: " ++ kind_text (e_kind e)] ++ optional "Description" (dt_desc (os_details os) p)
         ++ [lit "Total size: " ++ print_dec (Z.of_nat (footprint e)) ++ lit " byte(s)"]
         ++ match e_kind e with KdSystem | KdSubsystem => [] | _ => optional "Description" (dt_type_desc (os_details os) p) end
         ++ kind_shown (dt_unit (os_details os) p) (e_kind e)) t.
Proof.
  intros os y ev m a args p e L E N. exists (properties_text (os_details os) e p). split.
  - apply reported1; [cbn [listing In]; tauto|]. change (report os y (lit "showProperties") [a] m) with (at_path y (locate (sy_root y) a) (fun e p => tell (properties_text (os_details os) e p))).
    rewrite L. cbn [at_path]. rewrite E. reflexivity.
  - unfold properties_text. rewrite kind_text_shown by auto. rewrite property_text. match goal with |- text_lines ?l ?t => replace t with (lines l); [apply lines_text|] end.
    rewrite !lines_app, !lines_cons. replace (lines []) with (@nil ascii) by reflexivity. rewrite <- !app_assoc. cbn [app]. reflexivity.
Qed.
