(** Proofs about tokenizer, join, number parsing and printing. *)
From Coq Require Import List Arith ZArith Bool Ascii String Lia.
From Verif Require Import Base BaseProofs TextModel TextSpec.
Import ListNotations.

(** ** Tokenizer *)

Lemma split_loop_result : forall ds m input res tok lo,
  split_loop ds m input res tok lo = res ++ split_loop ds m input [] tok lo.
Proof.
  intros ds m input. induction input as [|c input IH]; intros res tok lo; simpl.
  - destruct lo; simpl; auto using app_nil_r.
  - destruct (in_chars ds c).
    + destruct m.
      * destruct tok.
        -- apply IH.
        -- rewrite IH. rewrite (IH [a :: tok]). rewrite app_assoc. auto.
      * rewrite IH. rewrite (IH [tok]). rewrite app_assoc. auto.
    + apply IH.
Qed.

Definition dfree (ds s : str) := forall c, In c s -> ~ In c ds.
Definition dall (ds s : str) := forall c, In c s -> In c ds.

Lemma dfree_app : forall ds a b, dfree ds (a ++ b) <-> dfree ds a /\ dfree ds b.
Proof.
  unfold dfree; intros; split.
  - intros H; split; intros; apply H; apply in_or_app; auto.
  - intros [H1 H2] c H; apply in_app_or in H; destruct H; auto.
Qed.

Lemma split_loop_dfree : forall ds m t input tok lo,
  dfree ds t ->
  split_loop ds m (t ++ input) [] tok lo
  = split_loop ds m input [] (tok ++ t) (match t with [] => lo | _ => true end).
Proof.
  intros ds m t. induction t as [|c t IH]; intros input tok lo H; simpl.
  - rewrite app_nil_r; auto.
  - assert (in_chars ds c = false) as E by (apply in_chars_false, H; left; auto).
    rewrite E. rewrite IH.
    + rewrite <- app_assoc. simpl. destruct t; auto.
    + intros x Hx; apply H; right; auto.
Qed.

Lemma split_loop_dall_merge : forall ds g input lo,
  dall ds g ->
  split_loop ds true (g ++ input) [] [] lo
  = split_loop ds true input [] [] (match g with [] => lo | _ => false end).
Proof.
  intros ds g. induction g as [|c g IH]; intros input lo H; simpl; auto.
  assert (in_chars ds c = true) as E by (apply in_chars_In, H; left; auto).
  rewrite E. rewrite IH.
  - destruct g; auto.
  - intros x Hx; apply H; right; auto.
Qed.

Lemma runs_split : forall ds s ts, runs ds s ts ->
  forall lo, lo = false -> split_loop ds true s [] [] lo = ts.
Proof.
  intros ds s ts H. induction H as [g Hg|g t Hg Hne Ht|g t d rest ts Hg Hne Ht Hd Hr IH];
    intros lo Hlo; subst lo.
  - rewrite <- (app_nil_r g), split_loop_dall_merge by auto. simpl. destruct g; auto.
  - rewrite split_loop_dall_merge by auto.
    rewrite <- (app_nil_r t) at 1. rewrite split_loop_dfree by auto. simpl.
    destruct t; [congruence|]. auto.
  - rewrite split_loop_dall_merge by auto. rewrite split_loop_dfree by auto.
    simpl. apply in_chars_In in Hd. rewrite Hd.
    destruct t; [congruence|]. rewrite split_loop_result. simpl. f_equal. apply IH; auto.
Qed.

Lemma runs_prepend : forall ds d s ts, In d ds -> runs ds s ts -> runs ds (d :: s) ts.
Proof.
  intros ds d s ts Hd H.
  assert (forall g, dall ds g -> dall ds (d :: g)) as Hg'.
  { intros g Hg c [Hc|Hc]; subst; auto. }
  destruct H as [g Hg|g t Hg Hne Ht|g t d' rest ts Hg Hne Ht Hd' Hr].
  - constructor. apply Hg'; auto.
  - change (d :: g ++ t) with ((d :: g) ++ t). constructor; auto. apply Hg'; auto.
  - change (d :: g ++ t ++ d' :: rest) with ((d :: g) ++ t ++ d' :: rest).
    constructor; auto. apply Hg'; auto.
Qed.

Lemma split_runs_gen : forall ds s tok,
  dfree ds tok ->
  runs ds (tok ++ s) (split_loop ds true s [] tok (match tok with [] => false | _ => true end)).
Proof.
  intros ds s. induction s as [|c s IH]; intros tok Ht; simpl.
  - destruct tok as [|x tok]; simpl.
    + constructor. intros c [].
    + rewrite app_nil_r. apply (runs_last ds [] (x :: tok)); auto; [intros c []|congruence].
  - destruct (in_chars ds c) eqn:E.
    + apply in_chars_In in E. destruct tok as [|x tok].
      * simpl. apply runs_prepend; auto. apply (IH []). intros y [].
      * rewrite split_loop_result. simpl.
        apply (runs_cons ds [] (x :: tok) c s); auto; [intros y []|congruence|].
        apply (IH []). intros y [].
    + apply in_chars_false in E.
      assert (dfree ds (tok ++ [c])) as Ht'.
      { apply dfree_app; split; auto. intros y [Hy|[]]; subst; auto. }
      specialize (IH (tok ++ [c]) Ht'). rewrite <- app_assoc in IH. simpl in IH.
      destruct tok; simpl in *; auto.
Qed.

Lemma split_merge_spec : forall ds s ts, split s ds true = ts <-> runs ds s ts.
Proof.
  intros. split.
  - intros <-. apply (split_runs_gen ds s []). intros c [].
  - intros H. unfold split. eapply runs_split; eauto.
Qed.

Lemma split_fields_gen : forall ds s tok lo,
  dfree ds tok -> (lo = true \/ s <> []) ->
  fields ds (tok ++ s) (split_loop ds false s [] tok lo).
Proof.
  intros ds s. induction s as [|c s IH]; intros tok lo Ht Hl; simpl.
  - destruct Hl as [->|Hl]; [|congruence]. rewrite app_nil_r. constructor; auto.
  - destruct (in_chars ds c) eqn:E.
    + apply in_chars_In in E. rewrite split_loop_result. simpl.
      constructor; auto. apply (IH [] true); auto. intros y [].
    + apply in_chars_false in E.
      assert (dfree ds (tok ++ [c])) as Ht'.
      { apply dfree_app; split; auto. intros y [Hy|[]]; subst; auto. }
      specialize (IH (tok ++ [c]) true Ht' (or_introl eq_refl)).
      rewrite <- app_assoc in IH. auto.
Qed.

Lemma fields_split : forall ds s fs, fields ds s fs ->
  forall lo, (lo = true \/ s <> []) -> split_loop ds false s [] [] lo = fs.
Proof.
  intros ds s fs H. induction H as [f Hf|f d rest fs Hf Hd Hr IH]; intros lo Hlo.
  - rewrite <- (app_nil_r f) at 1. rewrite split_loop_dfree by auto. simpl.
    destruct f; auto. destruct Hlo; [subst; auto|congruence].
  - rewrite split_loop_dfree by auto. simpl.
    apply in_chars_In in Hd. rewrite Hd. rewrite split_loop_result. simpl. f_equal.
    apply IH; auto.
Qed.

Lemma split_nomerge_spec : forall ds s fs, s <> [] -> (split s ds false = fs <-> fields ds s fs).
Proof.
  intros ds s fs Hs. split.
  - intros <-. apply (split_fields_gen ds s [] false); auto. intros c [].
  - intros H. unfold split. eapply fields_split; eauto.
Qed.

Lemma join_cons2 : forall sep x y l, join sep (x :: y :: l) = x ++ sep ++ join sep (y :: l).
Proof.
  intros. unfold join. simpl.
  assert (forall l a b, fold_left (fun acc r : str => acc ++ sep ++ r) l (a ++ b)
                        = a ++ fold_left (fun acc r : str => acc ++ sep ++ r) l b) as E.
  { clear. induction l as [|z l IH]; intros a b; simpl; auto.
    rewrite <- app_assoc. apply IH. }
  rewrite !E. auto.
Qed.

Lemma join_single : forall sep x, join sep [x] = x.
Proof. reflexivity. Qed.

Lemma runs_join : forall ds d l,
  In d ds -> Forall (fun t => t <> [] /\ dfree ds t) l -> runs ds (join [d] l) l.
Proof.
  intros ds d l Hd H. induction H as [|x l [Hx1 Hx2] Hl IH].
  - constructor. intros c [].
  - destruct l as [|y l].
    + apply (runs_last ds [] x); auto. intros c [].
    + rewrite join_cons2. simpl. apply (runs_cons ds [] x d); auto. intros c [].
Qed.

Lemma split_join_merge : forall ds d l,
  In d ds -> Forall (fun t => t <> [] /\ (forall c, In c t -> ~ In c ds)) l ->
  split (join [d] l) ds true = l.
Proof. intros. apply split_merge_spec. apply runs_join; auto. Qed.

Lemma fields_join : forall ds d l, l <> [] ->
  In d ds -> Forall (dfree ds) l -> fields ds (join [d] l) l.
Proof.
  intros ds d l Hne Hd H. induction H as [|x l Hx Hl IH]; [congruence|].
  destruct l as [|y l].
  - constructor; auto.
  - rewrite join_cons2. simpl. constructor; auto. apply IH. congruence.
Qed.

Lemma split_join_nomerge : forall ds d l,
  In d ds -> l <> [] -> l <> [[]] -> Forall (fun t => forall c, In c t -> ~ In c ds) l ->
  split (join [d] l) ds false = l.
Proof.
  intros ds d l Hd Hn1 Hn2 H. apply split_nomerge_spec.
  - destruct l as [|x [|y l]]; [congruence| |].
    + simpl. congruence.
    + rewrite join_cons2. destruct x; simpl; congruence.
  - apply fields_join; auto.
Qed.

(** Joining with a multi-character separator made of delimiters (e.g. ", "). *)
Lemma runs_prepend_all : forall ds g s ts, dall ds g -> runs ds s ts -> runs ds (g ++ s) ts.
Proof.
  induction g as [|c g IH]; intros s ts Hg H; simpl; auto.
  apply runs_prepend; [apply Hg; left; auto|]. apply IH; auto. intros x Hx; apply Hg; right; auto.
Qed.

Lemma split_join_merge_gen : forall ds sep l,
  sep <> [] -> (forall c, In c sep -> In c ds) ->
  Forall (fun t => t <> [] /\ (forall c, In c t -> ~ In c ds)) l ->
  split (join sep l) ds true = l.
Proof.
  intros ds sep l Hsep Hs H. apply split_merge_spec.
  induction H as [|x l [Hx1 Hx2] Hl IH].
  - constructor. intros c [].
  - destruct l as [|y l].
    + apply (runs_last ds [] x); auto. intros c [].
    + rewrite join_cons2. destruct sep as [|d sep]; [congruence|].
      apply (runs_cons ds [] x d); auto; [intros c []|apply Hs; left; auto|].
      apply runs_prepend_all; auto. intros c Hc; apply Hs; right; auto.
Qed.

(** ** Digits *)

Ltac zcases :=
  repeat match goal with
         | |- context [(?a <=? ?b)%Z] => destruct (Z.leb_spec a b)
         | |- context [(?a <? ?b)%Z] => destruct (Z.ltb_spec a b)
         | |- context [(?a =? ?b)%Z] => destruct (Z.eqb_spec a b)
         end.

Lemma digit_val_range : forall c d, digit_val c = Some d -> (0 <= d < 16)%Z.
Proof.
  intros c d. unfold digit_val, chr_code. zcases; cbn [andb orb]; intros H'; inversion H'; lia.
Qed.

Lemma digit_val_dec : forall c d, (digit_val c = Some d /\ (d < 10)%Z) <-> dec_digit c d.
Proof.
  intros c d. unfold digit_val, chr_code, dec_digit. pose proof (bval_range c).
  split.
  - intros [H1 H2]. revert H1. zcases; cbn [andb orb]; intros H'; inversion H'; lia.
  - intros [H1 H2]. rewrite H2. split; [|lia]. zcases; cbn [andb orb]; try lia. apply f_equal; lia.
Qed.

Lemma digit_val_hex : forall c d, digit_val c = Some d <-> hex_digit c d.
Proof.
  intros c d. unfold digit_val, chr_code, hex_digit, dec_digit. pose proof (bval_range c).
  split.
  - zcases; cbn [andb orb]; intros H'; inversion H'; lia.
  - intros H'. destruct H' as [[H1 H2]|[[H1 H2]|[H1 H2]]]; rewrite H2;
      zcases; cbn [andb orb]; try lia; apply f_equal; lia.
Qed.

(** [good b c d]: [c] is digit [d] in base [b]. *)
Definition good (b : Z) (c : ascii) (d : Z) : Prop := digit_val c = Some d /\ (d < b)%Z.

Lemma good10 : forall c d, good 10 c d <-> dec_digit c d.
Proof. intros; apply digit_val_dec. Qed.

Lemma good16 : forall c d, good 16 c d <-> hex_digit c d.
Proof.
  intros. unfold good. rewrite <- digit_val_hex. split; [tauto|].
  intros H; split; auto. apply digit_val_range in H. lia.
Qed.

Lemma good_ge0 : forall b c d, good b c d -> (0 <= d)%Z.
Proof. intros b c d [H _]. apply digit_val_range in H. lia. Qed.

Lemma take_digits_run : forall b s ds acc any rest,
  Forall2 (good b) s ds ->
  take_digits b acc any (s ++ rest)
  = take_digits b (fold_left (fun a d => b * a + d)%Z ds acc)
      (match ds with [] => any | _ => true end) rest.
Proof.
  intros b s ds acc any rest H. revert acc any.
  induction H as [|c d s ds [Hc1 Hc2] H IH]; intros acc any; simpl; auto.
  rewrite Hc1. destruct (Z.ltb_spec d b); [|lia]. rewrite IH. destruct ds; auto.
Qed.

Lemma take_digits_inv : forall b s acc any v a rest,
  take_digits b acc any s = (v, a, rest) ->
  exists s1 ds, s = s1 ++ rest /\ Forall2 (good b) s1 ds
    /\ v = fold_left (fun a d => b * a + d)%Z ds acc
    /\ a = (match ds with [] => any | _ => true end)
    /\ (match rest with c :: _ => forall d, ~ good b c d | [] => True end).
Proof.
  intros b s. induction s as [|c s IH]; intros acc any v a rest H; simpl in H.
  - inversion H; subst. exists [], []. repeat split; auto.
  - destruct (digit_val c) as [d|] eqn:E.
    + destruct (Z.ltb_spec d b).
      * apply IH in H. destruct H as [s1 [ds [H1 [H2 [H3 [H4 H5]]]]]]. subst.
        exists (c :: s1), (d :: ds). repeat split; auto.
        -- constructor; auto. split; auto.
        -- destruct ds; auto.
      * inversion H; subst. exists [], []. repeat split; auto.
        intros d' [Hd1 Hd2]. rewrite E in Hd1. inversion Hd1; subst. lia.
    + inversion H; subst. exists [], []. repeat split; auto.
      intros d' [Hd1 Hd2]. rewrite E in Hd1. discriminate.
Qed.

Lemma fold_positional : forall b ds, fold_left (fun a d => b * a + d)%Z ds 0%Z = positional b ds.
Proof. reflexivity. Qed.

Lemma positional_nonneg_gen : forall b ds acc, (0 <= b)%Z -> (0 <= acc)%Z ->
  Forall (fun d => 0 <= d)%Z ds -> (0 <= fold_left (fun a d => b * a + d)%Z ds acc)%Z.
Proof.
  induction ds as [|d ds IH]; intros acc Hb Ha H; simpl; auto.
  inversion H; subst. apply IH; auto. nia.
Qed.

Lemma positional_nonneg : forall b s ds, (0 <= b)%Z -> Forall2 (good b) s ds ->
  (0 <= positional b ds)%Z.
Proof.
  intros b s ds Hb H. apply positional_nonneg_gen; auto; [lia|].
  induction H; constructor; auto. eapply good_ge0; eauto.
Qed.

Lemma good_not_space : forall b c d, good b c d -> is_space c = false.
Proof.
  intros b c d [H _]. unfold digit_val, is_space, chr_code in *.
  revert H. zcases; cbn [andb orb]; intros H'; inversion H'; auto; lia.
Qed.

Lemma good_not_sign : forall b c d, good b c d -> c <> "-"%char /\ c <> "+"%char.
Proof.
  intros b c d [H _]. split; intros ->; vm_compute in H; discriminate.
Qed.

Lemma skip_ws_head : forall c s, is_space c = false -> skip_ws (c :: s) = c :: s.
Proof. intros. simpl. rewrite H. auto. Qed.

Lemma skip_ws_inv : forall s, exists ws, s = ws ++ skip_ws s /\ Forall (fun c => is_space c = true) ws
  /\ (match skip_ws s with c :: _ => is_space c = false | [] => True end).
Proof.
  induction s as [|c s IH].
  - exists []. simpl. auto.
  - simpl. destruct (is_space c) eqn:E.
    + destruct IH as [ws [H1 [H2 H3]]]. exists (c :: ws). simpl. split; [congruence|]. auto.
    + exists []. simpl. auto.
Qed.

(** ** Printing *)

Lemma digit_char_val : forall d, (0 <= d < 16)%Z -> digit_val (digit_char d) = Some d.
Proof.
  intros d H. unfold digit_char, digit_val, chr_code.
  destruct (Z.ltb_spec d 10); rewrite bval_byte_of, Z.mod_small by lia; zcases; cbn [andb orb]; try lia;
    apply f_equal; lia.
Qed.

Lemma digits_loop_spec : forall fuel b n acc,
  (2 <= b <= 16)%Z -> (0 <= n < 2 ^ Z.of_nat fuel)%Z -> (0 < fuel) ->
  exists s ds, digits_loop fuel b n acc = s ++ acc /\ s <> [] /\ ds <> [] /\ Forall2 (good b) s ds
    /\ forall a, fold_left (fun a d => b * a + d)%Z ds a = (a * b ^ Z.of_nat (List.length s) + n)%Z.
Proof.
  induction fuel as [|fuel IH]; intros b n acc Hb Hn Hf; [lia|].
  cbn [digits_loop]. destruct (Z.ltb_spec n b).
  - exists [digit_char n], [n]. repeat split; try congruence.
    + constructor; auto. split; [apply digit_char_val; lia|lia].
    + intros a. simpl. lia.
  - assert (n / b < 2 ^ Z.of_nat fuel)%Z.
    { rewrite Nat2Z.inj_succ, Z.pow_succ_r in Hn by lia.
      apply Z.div_lt_upper_bound; [lia|]. nia. }
    destruct fuel as [|fuel].
    { simpl in *. assert (1 <= n / b)%Z by (apply Z.div_le_lower_bound; lia). lia. }
    destruct (IH b (n / b)%Z (digit_char (n mod b) :: acc)) as [s [ds [H1 [H2 [H3 [H4 H5]]]]]]; auto.
    { split; auto. apply Z.div_pos; lia. }
    { lia. }
    pose proof (Z.mod_pos_bound n b ltac:(lia)).
    exists (s ++ [digit_char (n mod b)]), (ds ++ [n mod b]%Z).
    rewrite H1, <- app_assoc. split; auto. split; [destruct s; simpl; congruence|].
    split; [destruct ds; simpl; congruence|]. split.
    + apply Forall2_app; auto. constructor; auto. split; [apply digit_char_val; lia|lia].
    + intros a. rewrite fold_left_app. simpl. rewrite H5.
      rewrite app_length. simpl. rewrite Nat2Z.inj_add, Z.pow_add_r by lia.
      rewrite Z.pow_1_r. pose proof (Z.div_mod n b ltac:(lia)). nia.
Qed.

Lemma print_base_spec : forall b n, (2 <= b <= 16)%Z -> (0 <= n)%Z ->
  exists ds, Forall2 (good b) (print_base b n) ds /\ ds <> [] /\ print_base b n <> []
    /\ positional b ds = n.
Proof.
  intros b n Hb Hn. unfold print_base.
  destruct (digits_loop_spec (S (Z.to_nat (Z.log2 n))) b n []) as [s [ds [H1 [H2 [H3 [H4 H5]]]]]]; auto.
  - split; auto. rewrite Nat2Z.inj_succ, Z2Nat.id by (apply Z.log2_nonneg).
    destruct (Z.eq_dec n 0); [subst; simpl; lia|]. apply Z.log2_spec. lia.
  - lia.
  - rewrite app_nil_r in H1. rewrite H1. exists ds. repeat split; auto.
    unfold positional. rewrite H5. lia.
Qed.

Lemma positional_leading_zeros : forall b k ds,
  positional b (repeat 0%Z k ++ ds) = positional b ds.
Proof.
  intros. unfold positional. rewrite fold_left_app. f_equal.
  induction k; simpl; auto. rewrite Z.mul_0_r. auto.
Qed.

Lemma Forall2_repeat0 : forall b k, (0 < b)%Z ->
  Forall2 (good b) (repeat "0"%char k) (repeat 0%Z k).
Proof.
  induction k; simpl; intros; constructor; auto. split; auto.
Qed.

Lemma print_hex_spec : forall w n, (0 <= n)%Z ->
  exists s ds, print_hex w n = "0"%char :: "x"%char :: s /\ ds <> []
    /\ Forall2 hex_digit s ds /\ positional 16 ds = n.
Proof.
  intros w n Hn. destruct (print_base_spec 16 n) as [ds [H1 [H2 [H3 H4]]]]; try lia.
  exists (pad0 w (print_base 16 n)), (repeat 0%Z (w - List.length (print_base 16 n)) ++ ds).
  split; [reflexivity|]. split; [destruct ds; [congruence|]; intros E; apply app_eq_nil in E; destruct E; discriminate|].
  split.
  - assert (Forall2 (good 16) (pad0 w (print_base 16 n))
      (repeat 0%Z (w - List.length (print_base 16 n)) ++ ds)) as F.
    { apply Forall2_app; auto. apply Forall2_repeat0. lia. }
    clear - F. induction F; constructor; auto. apply good16; auto.
  - rewrite positional_leading_zeros. auto.
Qed.

Lemma print_dec_spec : forall z, int_text (print_dec z) z.
Proof.
  intros z. unfold print_dec. destruct (Z.ltb_spec z 0).
  - destruct (print_base_spec 10 (- z)) as [ds [H1 [H2 [H3 H4]]]]; try lia.
    replace z with (- positional 10 ds)%Z at 2 by lia. apply it_minus; auto.
    clear - H1. induction H1; constructor; auto. apply good10; auto.
  - destruct (print_base_spec 10 z) as [ds [H1 [H2 [H3 H4]]]]; try lia.
    rewrite <- H4 at 2. apply it_dec; auto.
    clear - H1. induction H1; constructor; auto. apply good10; auto.
Qed.

Lemma print_hex_text : forall w n, (0 <= n)%Z -> int_text (print_hex w n) n.
Proof.
  intros w n Hn. destruct (print_hex_spec w n Hn) as [s [ds [H1 [H2 [H3 H4]]]]].
  rewrite H1. rewrite <- H4. apply it_hex; auto.
Qed.

(** ** convertTo *)

Definition formfeed : ascii := "012"%char.

Lemma space_cases : forall c, is_space c = true -> c = formfeed \/ In c convert_rejected.
Proof.
  intros c H. unfold is_space, chr_code in H. pose proof (bval_range c).
  assert (forall z, bval c = z -> (0 <= z < 256)%Z -> c = byte_of z) as K.
  { intros z Hz _. rewrite <- Hz. symmetry. apply byte_of_bval. }
  assert (bval c = 9 \/ bval c = 10 \/ bval c = 11 \/ bval c = 12 \/ bval c = 13 \/ bval c = 32)%Z as D.
  { revert H. zcases; cbn [andb orb]; intros; try discriminate; lia. }
  destruct D as [D|[D|[D|[D|[D|D]]]]]; apply K in D; try lia; subst c; vm_compute; tauto.
Qed.

Lemma rejected_space : forall c, In c convert_rejected -> is_space c = true.
Proof. intros c H. simpl in H. intuition subst; reflexivity. Qed.

Lemma no_rejected_skip : forall s,
  existsb (in_chars convert_rejected) s = false -> ~ In formfeed s -> skip_ws s = s.
Proof.
  destruct s as [|c s]; intros H1 H2; auto. apply skip_ws_head.
  destruct (is_space c) eqn:E; auto. exfalso. apply space_cases in E. destruct E as [->|E].
  - apply H2; left; auto.
  - simpl in H1. apply in_chars_In in E. rewrite E in H1. discriminate.
Qed.

Lemma good_not_rejected : forall b s ds, Forall2 (good b) s ds ->
  existsb (in_chars convert_rejected) s = false.
Proof.
  intros b s ds H. induction H as [|c d s ds Hc H IH]; simpl; auto.
  rewrite IH, orb_false_r. apply in_chars_false. intros Hr. apply rejected_space in Hr.
  apply good_not_space in Hc. congruence.
Qed.

Lemma good_no_minus : forall b s ds, Forall2 (good b) s ds -> in_chars s "-"%char = false.
Proof.
  intros b s ds H. apply in_chars_false. induction H as [|c d s ds Hc H IH]; simpl; auto.
  intros [->|Hi]; auto. destruct Hc as [Hc _]. vm_compute in Hc. discriminate.
Qed.

Lemma Forall2_good10 : forall s ds, Forall2 dec_digit s ds <-> Forall2 (good 10) s ds.
Proof.
  intros; split; intros H; induction H; constructor; auto; apply good10; auto.
Qed.

Lemma Forall2_good16 : forall s ds, Forall2 hex_digit s ds <-> Forall2 (good 16) s ds.
Proof.
  intros; split; intros H; induction H; constructor; auto; apply good16; auto.
Qed.

Lemma take_digits_all : forall b s ds, Forall2 (good b) s ds -> ds <> [] ->
  take_digits b 0 false s = (positional b ds, true, []).
Proof.
  intros b s ds H Hne. rewrite <- (app_nil_r s), (take_digits_run b s ds 0 false []) by auto.
  simpl. destruct ds; [congruence|]. auto.
Qed.

(** Sign-free digit strings (base 10). *)
Lemma stream_int_digits10 : forall t s ds rest,
  Forall2 (good 10) s ds -> ds <> [] ->
  (match rest with c :: _ => forall d, ~ good 10 c d | [] => True end) ->
  stream_int 10 t (s ++ rest) =
  if in_ctype t (positional 10 ds) then Some (positional 10 ds, rest) else None.
Proof.
  intros t s ds rest H Hne Hrest. pose proof (positional_nonneg 10 s ds ltac:(lia) H) as Hp.
  unfold stream_int.
  destruct H as [|c d s ds Hc H]; [congruence|].
  cbn [app]. rewrite skip_ws_head by (eapply good_not_space; eauto).
  destruct (good_not_sign _ _ _ Hc) as [N1 N2].
  apply char_eqb_neq in N1. apply char_eqb_neq in N2. rewrite N1, N2.
  assert (take_digits 10 0 false (c :: s ++ rest) = (positional 10 (d :: ds), true, rest)) as E.
  { change (c :: s ++ rest) with ((c :: s) ++ rest).
    rewrite (take_digits_run 10 (c :: s) (d :: ds) 0 false rest) by (constructor; auto).
    destruct rest as [|r rest]; auto. simpl take_digits.
    destruct (digit_val r) as [e|] eqn:Er; auto.
    destruct (Z.ltb_spec e 10); auto. exfalso. apply (Hrest e). split; auto. }
  change (10 =? 16)%Z with false. cbv iota beta. rewrite E.
  destruct (ct_signed t) eqn:Es.
  - destruct (in_ctype t _); auto.
  - unfold in_ctype. unfold ct_lo. rewrite Es.
    destruct (Z.leb_spec 0 (positional 10 (d :: ds))); [|lia]. simpl.
    destruct (positional 10 (d :: ds) <=? ct_hi t)%Z; auto.
Qed.

Lemma stream_int_sign10 : forall t s ds rest (neg : bool),
  Forall2 (good 10) s ds -> ds <> [] ->
  (match rest with c :: _ => forall d, ~ good 10 c d | [] => True end) ->
  (neg = true -> ct_signed t = true) ->
  let v := (if neg then - positional 10 ds else positional 10 ds)%Z in
  stream_int 10 t ((if neg then "-"%char else "+"%char) :: s ++ rest) =
  if in_ctype t v then Some (v, rest) else None.
Proof.
  intros t s ds rest neg H Hne Hrest Hneg v.
  pose proof (positional_nonneg 10 s ds ltac:(lia) H) as Hp.
  unfold stream_int.
  assert (take_digits 10 0 false (s ++ rest) = (positional 10 ds, true, rest)) as E.
  { rewrite (take_digits_run 10 s ds 0 false rest) by auto.
    destruct ds; [congruence|].
    destruct rest as [|r rest]; auto. simpl take_digits.
    destruct (digit_val r) as [e|] eqn:Er; auto.
    destruct (Z.ltb_spec e 10); auto. exfalso. apply (Hrest e). split; auto. }
  destruct neg; (rewrite skip_ws_head by reflexivity).
  - change (char_eqb "-" "-") with true. cbv iota beta.
    change (10 =? 16)%Z with false. cbv iota beta. rewrite E. rewrite Hneg by auto. auto.
  - change (char_eqb "+" "-") with false. change (char_eqb "+" "+") with true. cbv iota beta.
    change (10 =? 16)%Z with false. cbv iota beta. rewrite E.
    destruct (ct_signed t) eqn:Es.
    + destruct (in_ctype t _); auto.
    + unfold in_ctype, v. unfold ct_lo. rewrite Es.
      destruct (Z.leb_spec 0 (positional 10 ds)); [|lia]. simpl.
      destruct (positional 10 ds <=? ct_hi t)%Z; auto.
Qed.

Lemma stream_int_hex : forall t s ds,
  Forall2 (good 16) s ds -> ds <> [] ->
  stream_int 16 t ("0"%char :: "x"%char :: s) =
  if in_ctype t (positional 16 ds) then Some (positional 16 ds, []) else None.
Proof.
  intros t s ds H Hne. pose proof (positional_nonneg 16 s ds ltac:(lia) H) as Hp.
  unfold stream_int. rewrite skip_ws_head by reflexivity.
  change (char_eqb "0" "-") with false. change (char_eqb "0" "+") with false. cbv iota beta.
  change (16 =? 16)%Z with true. cbv iota beta.
  change (char_eqb "0" "0" && (char_eqb "x" "x" || char_eqb "x" "X")) with true. cbv iota beta.
  rewrite (take_digits_all 16 s ds) by auto.
  destruct (ct_signed t) eqn:Es.
  - destruct (in_ctype t _); auto.
  - unfold in_ctype. unfold ct_lo. rewrite Es.
    destruct (Z.leb_spec 0 (positional 16 ds)); [|lia]. simpl.
    destruct (positional 16 ds <=? ct_hi t)%Z; auto.
Qed.

Lemma not_0x_digits : forall s ds, Forall2 (good 10) s ds ->
  (match s with
   | c0 :: c1 :: _ => if char_eqb c0 "0" && char_eqb c1 "x" then 16 else 10
   | _ => 10 end)%Z = 10%Z.
Proof.
  intros s ds H. destruct H as [|c0 d0 s ds H0 H]; auto. destruct H as [|c1 d1 s ds H1 H]; auto.
  destruct (char_eqb c1 "x") eqn:E; [|rewrite andb_false_r; auto].
  apply char_eqb_eq in E. subst. destruct H1 as [H1 _]. vm_compute in H1. discriminate.
Qed.

Lemma char_eqb_const_false : forall c1 c2 : ascii, char_eqb c1 c2 = false -> c1 <> c2.
Proof. intros c1 c2; apply char_eqb_neq. Qed.

(** Completeness: integer literals in range are accepted with their value. *)
Lemma convert_int_complete : forall t s v,
  int_text s v -> in_ctype t v = true -> (ct_signed t = false -> ~ In "-"%char s) ->
  convert_int t s = Some v.
Proof.
  intros t s v H Hr Hm. unfold convert_int.
  assert (in_chars s "-"%char && negb (ct_signed t) = false) as Hminus.
  { destruct (ct_signed t); simpl; [apply andb_false_r|].
    rewrite andb_true_r. apply in_chars_false. auto. }
  rewrite Hminus.
  destruct H as [s ds Hne H|s ds Hne H|s ds Hne H|s ds Hne H].
  - apply Forall2_good10 in H. rewrite (good_not_rejected _ _ _ H).
    rewrite (not_0x_digits _ _ H). rewrite <- (app_nil_r s).
    rewrite (stream_int_digits10 t s ds []) by auto. rewrite Hr. auto.
  - apply Forall2_good10 in H. cbn [existsb].
    rewrite (good_not_rejected _ _ _ H). change (in_chars convert_rejected "+") with false.
    cbn [orb].
    replace (match s with [] => 10 | c1 :: _ => if char_eqb "+" "0" && char_eqb c1 "x" then 16 else 10 end)%Z
      with 10%Z by (destruct s; auto).
    pose proof (stream_int_sign10 t s ds [] false H Hne I ltac:(congruence)) as E.
    cbv iota beta in E. rewrite app_nil_r in E. rewrite E. rewrite Hr. auto.
  - apply Forall2_good10 in H. cbn [existsb].
    rewrite (good_not_rejected _ _ _ H). change (in_chars convert_rejected "-") with false.
    cbn [orb].
    assert (ct_signed t = true) as Hsg.
    { destruct (ct_signed t) eqn:E; [reflexivity|]. exfalso. apply (Hm eq_refl). left; reflexivity. }
    replace (match s with [] => 10 | c1 :: _ => if char_eqb "-" "0" && char_eqb c1 "x" then 16 else 10 end)%Z
      with 10%Z by (destruct s; auto).
    pose proof (stream_int_sign10 t s ds [] true H Hne I ltac:(auto)) as E.
    cbv iota beta in E. rewrite app_nil_r in E. rewrite E. rewrite Hr. auto.
  - apply Forall2_good16 in H. cbn [existsb].
    rewrite (good_not_rejected _ _ _ H).
    change (in_chars convert_rejected "0") with false.
    change (in_chars convert_rejected "x") with false. cbn [orb].
    change (char_eqb "0" "0" && char_eqb "x" "x") with true. cbv iota.
    rewrite (stream_int_hex t s ds) by auto. rewrite Hr. auto.
Qed.

Lemma in_ctype_spec : forall t v, in_ctype t v = true <-> (ct_lo t <= v <= ct_hi t)%Z.
Proof.
  intros. unfold in_ctype. rewrite andb_true_iff, !Z.leb_le. tauto.
Qed.

(** Soundness: what is accepted is an integer literal of that value, except that form feeds
    may precede a decimal one. *)
Lemma stream_int_sound : forall b t s v,
  (b = 10 \/ b = 16)%Z ->
  (ct_signed t = false -> ~ In "-"%char s) ->
  is_space (hd "a"%char s) = false ->
  stream_int b t s = Some (v, []) ->
  in_ctype t v = true /\
  exists sg s1 ds, s = sg ++ s1 /\ ds <> [] /\ Forall2 (good b) s1 ds /\
     (sg = [] /\ v = positional b ds \/ sg = ["+"%char] /\ v = positional b ds
      \/ sg = ["-"%char] /\ v = (- positional b ds)%Z
      \/ (b = 16%Z /\ v = positional b ds
          /\ (exists x, (x = "x"%char \/ x = "X"%char)
              /\ (sg = ["0"%char; x] \/ sg = ["+"%char; "0"%char; x])))
      \/ (b = 16%Z /\ v = (- positional b ds)%Z
          /\ (exists x, (x = "x"%char \/ x = "X"%char) /\ sg = ["-"%char; "0"%char; x]))).
Proof.
  intros b t s v Hb Hm Hsp H. unfold stream_int in H.
  assert (skip_ws s = s) as Hskip.
  { destruct s as [|c s]; auto. apply skip_ws_head; auto. }
  rewrite Hskip in H.
  set (sgn := match s with
              | [] => (false, [])
              | c :: r => if char_eqb c "-" then (true, r) else if char_eqb c "+" then (false, r) else (false, s)
              end) in *.
  assert (exists (neg : bool) sg s2, sgn = (neg, s2) /\ s = sg ++ s2 /\
            (neg = true /\ sg = ["-"%char] \/ neg = false /\ (sg = [] \/ sg = ["+"%char]))) as Hsgn.
  { subst sgn. destruct s as [|c s']; [exists false, [], []; auto 10|].
    destruct (char_eqb c "-") eqn:E1.
    - apply char_eqb_eq in E1. subst. exists true, ["-"%char], s'. auto.
    - destruct (char_eqb c "+") eqn:E2.
      + apply char_eqb_eq in E2. subst. exists false, ["+"%char], s'. auto 10.
      + exists false, [], (c :: s'). auto 10. }
  destruct Hsgn as [neg [sg [s2 [E [Es Hsg]]]]]. rewrite E in H. clear sgn E.
  set (s3 := if (b =? 16)%Z then _ else s2) in H.
  assert (exists px, s2 = px ++ s3 /\ (px = [] \/ (b = 16%Z /\ exists x, (x = "x"%char \/ x = "X"%char) /\ px = ["0"%char; x]))) as Hpx.
  { subst s3. destruct (Z.eqb_spec b 16); [|exists []; auto].
    destruct s2 as [|c0 [|c1 r]]; try (exists []; auto; fail).
    destruct (char_eqb c0 "0" && (char_eqb c1 "x" || char_eqb c1 "X")) eqn:E; [|exists []; auto].
    apply andb_true_iff in E. destruct E as [E1 E2]. apply orb_true_iff in E2.
    apply char_eqb_eq in E1. subst c0. exists ["0"%char; c1]. split; auto. right. split; auto.
    exists c1. split; auto. rewrite !char_eqb_eq in E2. auto. }
  destruct Hpx as [px [E3 Hpx]]. clearbody s3.
  destruct (take_digits b 0 false s3) as [[mag any] rest] eqn:Et.
  apply take_digits_inv in Et. destruct Et as [s1 [ds [H1 [H2 [H3 [H4 _]]]]]].
  destruct any; [|discriminate].
  assert (ds <> []) as Hne by (destruct ds; congruence).
  pose proof (positional_nonneg b s1 ds ltac:(lia) H2) as Hp.
  rewrite fold_positional in H3. subst mag.
  assert (rest = [] /\ v = (if neg then - positional b ds else positional b ds)%Z /\ in_ctype t v = true)
    as [Hrest [Hv Hrange]].
  { destruct (ct_signed t) eqn:Esg.
    - destruct (in_ctype t _) eqn:Er in H; [|discriminate].
      inversion H; subst. auto.
    - assert (neg = false) as Hneg.
      { destruct neg; auto. exfalso. apply (Hm eq_refl). destruct Hsg as [[_ Hsg]|[Hsg _]]; [|discriminate].
        subst. left; auto. }
      rewrite Hneg in *.
      destruct (positional b ds <=? ct_hi t)%Z eqn:Er in H; [|discriminate].
      inversion H. subst v rest. repeat split; auto. unfold in_ctype, ct_lo. rewrite Esg.
      destruct (Z.leb_spec 0 (positional b ds)); [|lia]. simpl. auto. }
  subst rest. rewrite app_nil_r in H1. subst s3. split; auto.
  exists (sg ++ px), s1, ds. rewrite <- app_assoc, <- E3. split; auto. split; auto. split; auto.
  destruct Hsg as [[-> ->]|[-> [->| ->]]]; (destruct Hpx as [->|[Hb16 [x [Hx ->]]]]); simpl; auto 10.
  - right; right; right; right. split; auto. split; auto. exists x; auto.
  - right; right; right; left. split; auto. split; auto. exists x; auto.
  - right; right; right; left. split; auto. split; auto. exists x; auto.
Qed.

Lemma convert_int_sound : forall t s v,
  ~ In formfeed s -> convert_int t s = Some v ->
  int_text s v /\ in_ctype t v = true /\ (ct_signed t = false -> ~ In "-"%char s).
Proof.
  intros t s v Hff H. unfold convert_int in H.
  destruct (existsb (in_chars convert_rejected) s) eqn:Erej; [discriminate|].
  destruct (in_chars s "-" && negb (ct_signed t)) eqn:Em; [discriminate|].
  assert (ct_signed t = false -> ~ In "-"%char s) as Hm.
  { intros E. rewrite E in Em. simpl in Em. rewrite andb_true_r in Em. apply in_chars_false; auto. }
  set (b := (match s with
             | c0 :: c1 :: _ => if char_eqb c0 "0" && char_eqb c1 "x" then 16 else 10
             | _ => 10 end)%Z) in H.
  destruct (stream_int b t s) as [[v' rest]|] eqn:Es; [|discriminate].
  destruct rest; [|discriminate]. inversion H; subst v'. clear H.
  assert (is_space (hd "a"%char s) = false) as Hsp.
  { pose proof (no_rejected_skip s Erej Hff) as E. destruct s as [|c s']; auto. simpl in *.
    destruct (is_space c) eqn:Ec; auto.
    exfalso. assert (List.length (skip_ws s') <= List.length s').
    { destruct (skip_ws_inv s') as [ws [Hws _]]. rewrite Hws at 2. rewrite app_length. lia. }
    rewrite E in H. simpl in H. lia. }
  assert ((b = 16 /\ exists r, s = "0"%char :: "x"%char :: r) \/ b = 10)%Z as Hb.
  { subst b. destruct s as [|c0 [|c1 r]]; auto.
    destruct (char_eqb c0 "0" && char_eqb c1 "x") eqn:E; auto. left. split; auto.
    apply andb_true_iff in E. rewrite !char_eqb_eq in E. destruct E; subst. eauto. }
  clearbody b. apply stream_int_sound in Es; auto; [|destruct Hb as [[Hb _]|Hb]; auto].
  destruct Es as [Hr [sg [s1 [ds [E1 [Hne [Hd Hcases]]]]]]].
  split; [|split; auto].
  destruct Hb as [[Hb16 [r Hb]]|Hb].
  - subst b. destruct Hcases as [[Hsg Hv]|[[Hsg Hv]|[[Hsg Hv]|[[_ [Hv [x [Hx Hsg]]]]|[_ [Hv [x [Hx Hsg]]]]]]]].
    + (* digits directly: second char 'x' is not a digit *)
      exfalso. subst sg. simpl in E1. rewrite Hb in E1. subst s1.
      inversion Hd as [|? ? ? ? Hd1 Hd2]; subst.
      inversion Hd2 as [|? ? ? ? Hd3 Hd4]; subst. destruct Hd3 as [Hd3 _]. vm_compute in Hd3. discriminate.
    + subst sg. rewrite Hb in E1. discriminate.
    + subst sg. rewrite Hb in E1. discriminate.
    + destruct Hsg as [Hsg|Hsg]; subst sg; rewrite Hb in E1; [|discriminate].
      inversion E1. subst. apply it_hex; auto. apply Forall2_good16; auto.
    + subst sg. rewrite Hb in E1. discriminate.
  - subst b. apply Forall2_good10 in Hd.
    destruct Hcases as [[Hsg Hv]|[[Hsg Hv]|[[Hsg Hv]|[[Hb _]|[Hb _]]]]]; try discriminate; subst; simpl.
    + apply it_dec; auto.
    + apply it_plus; auto.
    + apply it_minus; auto.
Qed.

Lemma in_ctype_narrow : forall t v, ct_bytes t = 1 -> in_ctype t v = true ->
  in_ctype (CType (ct_signed t) 4) v = true.
Proof.
  intros [sg n] v Hn H. simpl in Hn. subst n. apply in_ctype_spec in H. apply in_ctype_spec.
  simpl ct_signed. destruct sg.
  - change (ct_lo (CType true 1)) with (-128)%Z in H. change (ct_hi (CType true 1)) with 127%Z in H.
    change (ct_lo (CType true 4)) with (-2147483648)%Z. change (ct_hi (CType true 4)) with 2147483647%Z. lia.
  - change (ct_lo (CType false 1)) with 0%Z in H. change (ct_hi (CType false 1)) with 255%Z in H.
    change (ct_lo (CType false 4)) with 0%Z. change (ct_hi (CType false 4)) with 4294967295%Z. lia.
Qed.

Lemma convertTo_spec : forall t s v, ~ In formfeed s ->
  (convertTo t s = Some v <->
   int_text s v /\ (ct_lo t <= v <= ct_hi t)%Z /\ (ct_signed t = false -> ~ In "-"%char s)).
Proof.
  intros t s v Hff. rewrite <- in_ctype_spec. unfold convertTo, convert_via.
  destruct (Nat.eqb_spec (ct_bytes t) 1).
  - split.
    + destruct (convert_int _ s) as [v'|] eqn:E; [|discriminate].
      destruct (in_ctype t v') eqn:Er; [|discriminate]. intros H; inversion H; subst.
      apply convert_int_sound in E; auto. simpl in E. tauto.
    + intros [H1 [H2 H3]]. rewrite (convert_int_complete _ s v); auto.
      * rewrite H2. auto.
      * apply in_ctype_narrow; auto.
  - split.
    + intros H. apply convert_int_sound in H; auto.
    + intros [H1 [H2 H3]]. apply convert_int_complete; auto.
Qed.

Lemma int_text_no_formfeed : forall s v, int_text s v -> ~ In formfeed s.
Proof.
  assert (forall s ds, Forall2 (good 16) s ds -> ~ In formfeed s) as K.
  { intros s ds H. induction H as [|c d s ds Hc H IH]; simpl; auto.
    intros [->|Hi]; auto. apply good_not_space in Hc. vm_compute in Hc. discriminate. }
  assert (forall s ds, Forall2 dec_digit s ds -> ~ In formfeed s) as K10.
  { intros s ds H. apply (K s ds). induction H; constructor; auto. apply good16. left; auto. }
  intros s v H. destruct H as [s ds Hne H|s ds Hne H|s ds Hne H|s ds Hne H].
  - eapply K10; eauto.
  - intros [E|E]; [discriminate|]. eapply K10; eauto.
  - intros [E|E]; [discriminate|]. eapply K10; eauto.
  - apply Forall2_good16 in H. intros [E|[E|E]]; try discriminate. eapply K; eauto.
Qed.

Lemma int_text_unique : forall s v1 v2, int_text s v1 -> int_text s v2 -> v1 = v2.
Proof.
  intros s v1 v2 H1 H2.
  set (n := S (Z.to_nat (Z.abs v1 + Z.abs v2))).
  assert (forall v, (Z.abs v <= Z.abs v1 + Z.abs v2)%Z -> in_ctype (CType true n) v = true) as K.
  { intros v Hv. apply in_ctype_spec. unfold ct_lo, ct_hi, ct_signed, ct_bytes.
    assert (Z.abs v1 + Z.abs v2 < 2 ^ (8 * Z.of_nat n - 1))%Z.
    { eapply Z.lt_le_trans; [apply (Z.pow_gt_lin_r 2); lia|].
      apply Z.pow_le_mono_r; subst n; lia. }
    lia. }
  assert (convert_int (CType true n) s = Some v1) as E1
      by (apply convert_int_complete; auto; [apply K; lia | discriminate]).
  assert (convert_int (CType true n) s = Some v2) as E2
      by (apply convert_int_complete; auto; [apply K; lia | discriminate]).
  congruence.
Qed.

Lemma print_dec_minus : forall z, (0 <= z)%Z -> ~ In "-"%char (print_dec z).
Proof.
  intros z Hz. unfold print_dec. destruct (Z.ltb_spec z 0); [lia|].
  destruct (print_base_spec 10 z) as [ds [H1 _]]; try lia.
  apply in_chars_false. eapply good_no_minus; eauto.
Qed.

Lemma print_hex_minus : forall w z, (0 <= z)%Z -> ~ In "-"%char (print_hex w z).
Proof.
  intros w z Hz. destruct (print_hex_spec w z Hz) as [s [ds [H1 [_ [H3 _]]]]]. rewrite H1.
  apply Forall2_good16 in H3. intros [E|[E|E]]; try discriminate.
  revert E. apply in_chars_false. eapply good_no_minus; eauto.
Qed.

Lemma convertTo_print_dec : forall t z, (ct_lo t <= z <= ct_hi t)%Z -> convertTo t (print_dec z) = Some z.
Proof.
  intros t z H. apply convertTo_spec.
  - eapply int_text_no_formfeed. apply print_dec_spec.
  - split; [apply print_dec_spec|]. split; auto. intros E. apply print_dec_minus.
    unfold ct_lo in H. rewrite E in H. lia.
Qed.

Lemma convertTo_print_hex : forall t w z,
  (0 <= z)%Z -> (ct_lo t <= z <= ct_hi t)%Z -> convertTo t (print_hex w z) = Some z.
Proof.
  intros t w z H0 H. apply convertTo_spec.
  - eapply int_text_no_formfeed. apply print_hex_text. auto.
  - split; [apply print_hex_text; auto|]. split; auto. intros E. apply print_hex_minus. auto.
Qed.

Lemma is_hexadecimal_print_hex : forall w z, is_hexadecimal (print_hex w z) = true.
Proof. reflexivity. Qed.

Lemma is_hexadecimal_print_dec : forall z, is_hexadecimal (print_dec z) = false.
Proof.
  intros z. unfold print_dec. destruct (Z.ltb_spec z 0).
  - unfold is_hexadecimal. destruct (print_base 10 (- z)); auto.
  - destruct (print_base_spec 10 z) as [ds [H1 _]]; try lia.
    unfold is_hexadecimal. destruct H1 as [|c0 d0 s ds H0 H1]; auto. destruct H1 as [|c1 d1 s ds H1 H2]; auto.
    destruct H1 as [H1 H1'].
    destruct (char_eqb c1 "x") eqn:Ex.
    { apply char_eqb_eq in Ex. subst. vm_compute in H1. discriminate. }
    destruct (char_eqb c1 "X") eqn:EX.
    { apply char_eqb_eq in EX. subst. vm_compute in H1. discriminate. }
    apply andb_false_r.
Qed.
