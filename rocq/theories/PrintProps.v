(** C55: the text of floating point parameters. *)
From Coq Require Import List Arith ZArith QArith Qabs Qpower Bool Ascii String Lia Lqa.
From Verif Require Import Base BaseProofs TextModel TextSpec TextProofs RealModel RealSpec RealProofs ParamTypeModel
  ParamTypeSpec BlackboardModel BlackboardProofs IntProofs FixProofs FloatProofs PrintProofs.
Import ListNotations.
Open Scope Z_scope.

Lemma bb_read_int_word : forall bb off u, bb_read_int bb 4 off = Ok u -> 0 <= u < 2 ^ 32.
Proof.
  intros bb off u Hr. apply bb_read_int_Ok in Hr. destruct Hr as [HL ->]. pose proof (le_decode_range (slice bb off 4)) as R.
  rewrite slice_length in R by lia. change (256 ^ Z.of_nat 4) with (2 ^ 32) in R. lia.
Qed.

(** The text shown for a number is the closest decimal number of six significant digits. *)
Theorem C55_text_shown : forall a b h off bb u, bb_read_int bb 4 off = Ok u -> f32_finite u = true ->
  exists s r, param_get_str (PFloat a b) (Fmt false h) off bb = Ok s /\ real_text (f32_sign u) s r /\ nearest_decimal 6 (Qabs (f32_value u)) r.
Proof.
  intros a b h off bb u R F. destruct (print_f32_text u (bb_read_int_word _ _ _ R) F) as [r [T [N1 N2]]]. exists (print_f32 u), r. unfold param_get_str. cbn [pt_size]. rewrite R. split; [reflexivity|].
  split; auto. assert (Qabs (f32_value u) == f32_mag u)%Q as E.
  { unfold f32_value, signed_q. cbn [fst snd]. pose proof (f32_mag_nonneg u). destruct (f32_sign u); [rewrite Qabs_opp|]; apply Qabs_pos; auto. }
  split; auto. intros r' H. rewrite E. auto.
Qed.
Print Assumptions C55_text_shown.

Example C55_text_shown_nonvacuous : exists bb u, bb_read_int bb 4 0 = Ok u /\ f32_finite u = true /\ f32_sign u = true
  /\ param_get_str (PFloat (-5) 5) (Fmt false false) 0 bb = Ok (lit "-0.333333") /\ (f32_value u == -11184811 # 33554432)%Q.
Proof. exists [byte_of 171; byte_of 170; byte_of 170; byte_of 190], 3198855851. repeat split; vm_compute; reflexivity. Qed.

(** What is not a number: the infinities and the rest. *)
Theorem C55_not_a_number : forall a b h off bb u, bb_read_int bb 4 off = Ok u -> f32_finite u = false ->
  exists s d, param_get_str (PFloat a b) (Fmt false h) off bb = Ok s /\ param_get_val (PFloat a b) KDbl off bb = Ok (UDbl d)
    /\ (u = 255 * 2 ^ 23 -> s = lit "inf" /\ d = DInf false) /\ (u = 2 ^ 31 + 255 * 2 ^ 23 -> s = lit "-inf" /\ d = DInf true)
    /\ (u <> 255 * 2 ^ 23 -> u <> 2 ^ 31 + 255 * 2 ^ 23 -> (s = lit "nan" \/ s = lit "-nan") /\ d = DNan).
Proof.
  intros a b h off bb u R F. pose proof (bb_read_int_word _ _ _ R) as W. destruct (f32_word_of u W) as [E [He Hm]].
  exists (print_f32 u), (f32_to_dbl u). unfold param_get_str, param_get_val. cbn [pt_size]. rewrite R. split; [reflexivity|]. split; [reflexivity|].
  assert (f32_exp u = 255) as X by (unfold f32_finite in F; destruct (Z.eqb_spec (f32_exp u) 255); auto; discriminate). rewrite X in E.
  unfold print_f32, f32_to_dbl. rewrite F. unfold f32_word in E.
  split; [intros ->; vm_compute; auto|]. split; [intros ->; vm_compute; auto|]. intros N1 N2.
  assert (f32_mant u <> 0) as M by (intros Z; rewrite Z in E; destruct (f32_sign u); lia).
  rewrite (proj2 (Z.eqb_neq _ _) M). split; auto. destruct (f32_sign u); auto.
Qed.
Print Assumptions C55_not_a_number.

(** The raw hexadecimal text: the memory word in lower case after 0x, filled with zeros on the left to eight characters. *)
Theorem C55_raw_hex_text : forall a b off bb u, bb_read_int bb 4 off = Ok u -> u <> 0 ->
  exists k hs ds, param_get_str (PFloat a b) (Fmt true true) off bb = Ok (repeat "0"%char k ++ lit "0x" ++ hs)
    /\ Forall2 (fun c d => dec_digit c d \/ 10 <= d <= 15 /\ bval c = 87 + d) hs ds /\ positional 16 ds = u /\ k = (6 - List.length hs)%nat.
Proof.
  intros a b off bb u R N. pose proof (bb_read_int_word _ _ _ R) as W. destruct (print_base_spec 16 u ltac:(lia) ltac:(lia)) as [ds [H1 [H2 [H3 H4]]]].
  exists (6 - List.length (map lower_hex (print_base 16 u)))%nat, (map lower_hex (print_base 16 u)), ds. unfold param_get_str. cbn [pt_size]. rewrite R. cbn [obind from_bb_str]. unfold float_to_str. cbn [f_raw f_hex].
  rewrite (proj2 (Z.eqb_neq _ _) N). split; [unfold pad0; rewrite app_length; cbn [lit List.length]; reflexivity|]. split; auto.
  clear - H1. induction H1 as [|c d s ds G H IH]; cbn [map]; constructor; auto. apply good16 in G. unfold lower_hex. pose proof (bval_range c).
  destruct G as [G|[G|G]].
  - left. destruct G as [G1 G2]. destruct (Z.leb_spec 65 (bval c)); cbn [andb]; [lia|]. split; auto.
  - right. destruct (Z.leb_spec (bval c) 70); [lia|]. rewrite andb_false_r. auto.
  - right. destruct (Z.leb_spec 65 (bval c)); [|lia]. destruct (Z.leb_spec (bval c) 70); [|lia]. cbn [andb]. split; [lia|]. rewrite bval_byte_of, Z.mod_small by lia. lia.
Qed.
Print Assumptions C55_raw_hex_text.

Theorem C55_raw_hex_zero : forall a b off bb, bb_read_int bb 4 off = Ok 0 -> param_get_str (PFloat a b) (Fmt true true) off bb = Ok (lit "00000000").
Proof. intros a b off bb R. unfold param_get_str. cbn [pt_size]. rewrite R. reflexivity. Qed.
Print Assumptions C55_raw_hex_zero.

Example C55_raw_hex_nonvacuous : bb_read_int [byte_of 171; byte_of 170; byte_of 0; byte_of 0] 4 0 = Ok 43691
  /\ param_get_str (PFloat (-5) 5) (Fmt true true) 0 [byte_of 171; byte_of 170; byte_of 0; byte_of 0] = Ok (lit "000xaaab").
Proof. split; vm_compute; reflexivity. Qed.
