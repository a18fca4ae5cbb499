(** Properties of the access to integer parameters through an adaptation (C66). *)
From Coq Require Import List Arith ZArith QArith Qabs Bool Ascii String Lia Lqa.
From Verif Require Import Base BaseProofs TextModel TextSpec RealModel RealSpec RealProofs ParamTypeModel ParamTypeSpec BlackboardModel IntProofs
  XmlModel DeclModel DeclDemo AdaptModel AdaptSpec AdaptProofs.
Import ListNotations.
Local Open Scope Z_scope.

(** ** C66: doubles and integer parameters *)

(** Whatever the adaptation and the C library, a double that is accepted leaves a value within the declared range, and changes
    nothing else. *)
Theorem C66_within_range : forall l sg b lo hi ads d o bb bb', pt_wf (PInt sg b lo hi) = true ->
  int_set_dbl l (PInt sg b lo hi) ads d o bb = Ok bb' ->
  exists v, lo <= v <= hi /\ has_value b o bb' v /\ only_changed b o bb bb'.
Proof.
  intros l sg b lo hi ads d o bb bb' Hw H. apply pt_wf_int in Hw. destruct Hw as (Hb & _). destruct ads as [|a rest]; [discriminate|].
  destruct (int_set_inv _ _ _ _ _ _ _ _ _ _ _ Hb H) as (i & _ & K). exists i. exact K.
Qed.
Print Assumptions C66_within_range.

(** A number is scaled by the slope, within the accuracy of two rounded operations, its fractional part is dropped and the offset
    added.  It is accepted exactly when the result lies within the range. *)
Theorem C66_set : forall l sg b lo hi off num den rest d q o bb, pt_wf (PInt sg b lo hi) = true -> (o + b <= List.length bb)%nat ->
  - 2 ^ 31 <= off <= 2 ^ 31 - 1 -> slope_ok num -> slope_ok den -> number_of d q -> (Qabs (q * num / den) <= inject_Z (2 ^ 62))%Q ->
  exists y z, (Qabs (y - q * num / den) <= Qabs (q * num / den) * Qpower 2 (-51) + Qpower 2 (-600))%Q /\ truncated y z
    /\ (lo <= z + off <= hi -> exists bb', int_set_dbl l (PInt sg b lo hi) (ALinear off num den :: rest) d o bb = Ok bb'
         /\ has_value b o bb' (z + off) /\ only_changed b o bb bb')
    /\ (~ (lo <= z + off <= hi) -> int_set_dbl l (PInt sg b lo hi) (ALinear off num den :: rest) d o bb = Err).
Proof.
  intros l sg b lo hi off num den rest d q o bb Hw Ho Hf Hn Hd Hq B. apply pt_wf_int in Hw. destruct Hw as (Hb & _). apply d_val_number in Hq.
  destruct (linear_from_spec off num den d q Hf Hn Hd Hq B) as (y & Y1 & Y2). exists y, (q_trunc y). split; [auto|]. split; [apply q_trunc_spec|].
  split; intros K; [apply int_set_value; auto|eapply int_set_out; eauto].
Qed.
Print Assumptions C66_set.

(** When both operations are exact, so is the value. *)
Theorem C66_set_exact : forall l sg b lo hi off num den rest d q o bb z, pt_wf (PInt sg b lo hi) = true -> (o + b <= List.length bb)%nat ->
  - 2 ^ 31 <= off <= 2 ^ 31 - 1 -> slope_ok num -> slope_ok den -> number_of d q -> (Qabs (q * num / den) <= inject_Z (2 ^ 62))%Q ->
  is_double (q * num) -> is_double (q * num / den) -> truncated (q * num / den) z ->
  (lo <= z + off <= hi -> exists bb', int_set_dbl l (PInt sg b lo hi) (ALinear off num den :: rest) d o bb = Ok bb'
     /\ has_value b o bb' (z + off) /\ only_changed b o bb bb')
  /\ (~ (lo <= z + off <= hi) -> int_set_dbl l (PInt sg b lo hi) (ALinear off num den :: rest) d o bb = Err).
Proof.
  intros l sg b lo hi off num den rest d q o bb z Hw Ho Hf Hn Hd Hq B D1 D2 T. apply pt_wf_int in Hw. destruct Hw as (Hb & _). apply d_val_number in Hq.
  assert (E := linear_from_exact off num den d q Hf Hn Hd Hq B D1 D2). rewrite (truncated_one _ _ _ (q_trunc_spec _) T) in E.
  split; intros K; [apply int_set_value; auto|eapply int_set_out; eauto].
Qed.
Print Assumptions C66_set_exact.

(** Quarters with an offset of one: -6.5 is stored as -25. *)
Example C66_set_nonvacuous : exists bb', pt_wf (PInt true 2 (-40) 24) = true
  /\ slope_ok 4 /\ slope_ok 1 /\ number_of (DFin ((-13) # 2)) ((-13) # 2) /\ is_double (((-13) # 2) * 4) /\ is_double (((-13) # 2) * 4 / 1)
  /\ int_set_dbl (Libm (fun d => d) (fun d => d)) (PInt true 2 (-40) 24) [ALinear 1 4 1] (DFin ((-13) # 2)) 0 [zero; zero] = Ok bb'
  /\ has_value 2 0 bb' (-25).
Proof.
  eexists. split; [reflexivity|]. split; [split; vm_compute; discriminate|]. split; [split; vm_compute; discriminate|]. split; [left; reflexivity|].
  split; [exists (-26), 0; split; [reflexivity|lia]|]. split; [exists (-26), 0; split; [reflexivity|lia]|]. split; [vm_compute; reflexivity|vm_compute; reflexivity].
Qed.

(** A rising slope keeps the order of the numbers. *)
Theorem C66_monotone : forall l sg b lo hi off num den rest d d' q q' o bb bb1 bb2 v v', pt_wf (PInt sg b lo hi) = true ->
  slope_ok num -> slope_ok den -> (0 < num / den)%Q -> number_of d q -> number_of d' q' -> (q <= q')%Q ->
  int_set_dbl l (PInt sg b lo hi) (ALinear off num den :: rest) d o bb = Ok bb1 -> has_value b o bb1 v -> lo <= v <= hi ->
  int_set_dbl l (PInt sg b lo hi) (ALinear off num den :: rest) d' o bb = Ok bb2 -> has_value b o bb2 v' -> lo <= v' <= hi -> v <= v'.
Proof.
  intros l sg b lo hi off num den rest d d' q q' o bb bb1 bb2 v v' Hw Hn Hd Hs Hq Hq' L S1 V1 R1 S2 V2 R2.
  pose proof Hw as W. apply pt_wf_int in W. destruct W as (Hb & W1 & W2 & W3). apply d_val_number in Hq, Hq'.
  destruct (int_set_inv _ _ _ _ _ _ _ _ _ _ _ Hb S1) as (i & A & B & C & _), (int_set_inv _ _ _ _ _ _ _ _ _ _ _ Hb S2) as (i' & A' & B' & C' & _).
  assert (U : forall bb x y, has_value b o bb x -> has_value b o bb y -> lo <= x <= hi -> lo <= y <= hi -> x = y).
  { intros bb0 x y X Y Rx Ry. apply (one_value sg b o bb0); auto; lia. }
  rewrite (U _ _ _ V1 C R1 B), (U _ _ _ V2 C' R2 B'). exact (linear_mono off num den d d' q q' i i' Hn Hd Hs Hq Hq' L A A').
Qed.
Print Assumptions C66_monotone.

Example C66_monotone_nonvacuous : exists bb1 bb2, let l := Libm (fun d => d) (fun d => d) in (0 < (-3) / (-2))%Q
  /\ int_set_dbl l (PInt true 2 (-40) 24) [ALinear 1 (-3) (-2)] (DFin (1 # 3)) 0 [zero; zero] = Ok bb1 /\ has_value 2 0 bb1 1
  /\ int_set_dbl l (PInt true 2 (-40) 24) [ALinear 1 (-3) (-2)] (DFin (2 # 3)) 0 [zero; zero] = Ok bb2 /\ has_value 2 0 bb2 2.
Proof. eexists. eexists. split; [vm_compute; reflexivity|]. split; [vm_compute; reflexivity|]. split; [vm_compute; reflexivity|]. split; vm_compute; reflexivity. Qed.

(** What is read after a number was accepted is less than one step away from it, up to rounding. *)
Theorem C66_read_after_set : forall l sg b lo hi off num den rest d q o bb bb', pt_wf (PInt sg b lo hi) = true ->
  - 2 ^ 31 <= off <= 2 ^ 31 - 1 -> slope_ok num -> slope_ok den -> number_of d q ->
  int_set_dbl l (PInt sg b lo hi) (ALinear off num den :: rest) d o bb = Ok bb' ->
  exists d' q', int_get_dbl l (PInt sg b lo hi) (ALinear off num den :: rest) o bb' = Ok d' /\ number_of d' q'
    /\ (Qabs (q' - q) <= Qabs (den / num) * (1 + Qpower 2 (-49)) + Qabs q * Qpower 2 (-49))%Q.
Proof.
  intros l sg b lo hi off num den rest d q o bb bb' Hw Hf Hn Hd Hq S1. pose proof Hw as W. apply pt_wf_int in W. destruct W as (Hb & W1 & W2 & W3). apply d_val_number in Hq.
  destruct (int_set_inv _ _ _ _ _ _ _ _ _ _ _ Hb S1) as (i & A & B & C & _). assert (Wi : width_lo sg b <= i <= width_hi sg b) by lia.
  destruct (linear_reread off num den d q i Hf Hn Hd Hq A (value_spans sg b i off Hb Wi Hf)) as (q' & Q1 & Q2).
  exists (adapt_to l (ALinear off num den) i), q'. split; [apply int_get_value; auto|]. split; [apply d_val_number; auto|exact Q2].
Qed.
Print Assumptions C66_read_after_set.

Example C66_read_after_set_nonvacuous : exists bb' d', let l := Libm (fun d => d) (fun d => d) in
  int_set_dbl l (PInt false 1 0 200) [ALinear (-3) 10 3] (DFin 30) 1 (lit "abc") = Ok bb'
  /\ int_get_dbl l (PInt false 1 0 200) [ALinear (-3) 10 3] 1 bb' = Ok (DFin d') /\ (d' == 30)%Q.
Proof. eexists. eexists. split; [vm_compute; reflexivity|]. split; [vm_compute; reflexivity|vm_compute; reflexivity]. Qed.

(** Missing for "the value read, written back, is the value": the value may end one step closer to the offset, and may be
    refused when it lies there out of the range. *)
Theorem C66_write_back_partial : forall l sg b lo hi off num den rest o bb v, pt_wf (PInt sg b lo hi) = true -> (o + b <= List.length bb)%nat ->
  - 2 ^ 31 <= off <= 2 ^ 31 - 1 -> slope_ok num -> slope_ok den -> lo <= v <= hi -> has_value b o bb v ->
  exists d q w, int_get_dbl l (PInt sg b lo hi) (ALinear off num den :: rest) o bb = Ok d /\ number_of d q
    /\ (w = v \/ (off < v /\ w = v - 1) \/ (v < off /\ w = v + 1))
    /\ (lo <= w <= hi -> exists bb', int_set_dbl l (PInt sg b lo hi) (ALinear off num den :: rest) d o bb = Ok bb'
         /\ has_value b o bb' w /\ only_changed b o bb bb')
    /\ (~ (lo <= w <= hi) -> int_set_dbl l (PInt sg b lo hi) (ALinear off num den :: rest) d o bb = Err).
Proof.
  intros l sg b lo hi off num den rest o bb v Hw Ho Hf Hn Hd Hv V. pose proof Hw as W. apply pt_wf_int in W. destruct W as (Hb & W1 & W2 & W3).
  assert (Wv : width_lo sg b <= v <= width_hi sg b) by lia. assert (Sp := value_spans sg b v off Hb Wv Hf).
  destruct (linear_to_spec off num den v Sp Hn Hd) as (q & Q1 & _). destruct (linear_back off num den v Hf Hn Hd Sp) as (w & L1 & L2).
  exists (adapt_to l (ALinear off num den) v), q, w. split; [apply int_get_value; auto|]. split; [apply d_val_number; auto|]. split; [exact L2|].
  split; intros K; [apply int_set_value; auto|eapply int_set_out; eauto].
Qed.
Print Assumptions C66_write_back_partial.

(** When both operations of the reading are exact, writing back changes nothing. *)
Theorem C66_write_back_exact : forall l sg b lo hi off num den rest o bb v, pt_wf (PInt sg b lo hi) = true ->
  - 2 ^ 31 <= off <= 2 ^ 31 - 1 -> slope_ok num -> slope_ok den -> lo <= v <= hi -> has_value b o bb v ->
  is_double (inject_Z (v - off) * den) -> is_double (inject_Z (v - off) * den / num) ->
  exists d, int_get_dbl l (PInt sg b lo hi) (ALinear off num den :: rest) o bb = Ok d
    /\ int_set_dbl l (PInt sg b lo hi) (ALinear off num den :: rest) d o bb = Ok bb.
Proof.
  intros l sg b lo hi off num den rest o bb v Hw Hf Hn Hd Hv V D1 D2. pose proof Hw as W. apply pt_wf_int in W. destruct W as (Hb & W1 & W2 & W3).
  assert (Wv : width_lo sg b <= v <= width_hi sg b) by lia. assert (Sp := value_spans sg b v off Hb Wv Hf).
  exists (adapt_to l (ALinear off num den) v). split; [apply int_get_value; auto|]. apply (int_set_same _ _ _ _ _ _ _ _ _ _ v); auto.
  apply linear_back_exact; auto.
Qed.
Print Assumptions C66_write_back_exact.

(** In particular without a slope, whatever the offset. *)
Theorem C66_write_back_offset : forall l sg b lo hi off rest o bb v, pt_wf (PInt sg b lo hi) = true ->
  - 2 ^ 31 <= off <= 2 ^ 31 - 1 -> lo <= v <= hi -> has_value b o bb v ->
  exists d q, int_get_dbl l (PInt sg b lo hi) (ALinear off 1 1 :: rest) o bb = Ok d /\ number_of d q /\ (q == inject_Z (v - off))%Q
    /\ int_set_dbl l (PInt sg b lo hi) (ALinear off 1 1 :: rest) d o bb = Ok bb.
Proof.
  intros l sg b lo hi off rest o bb v Hw Hf Hv V. pose proof Hw as W. apply pt_wf_int in W. destruct W as (Hb & W1 & W2 & W3).
  assert (Wv : width_lo sg b <= v <= width_hi sg b) by lia. assert (Sp := value_spans sg b v off Hb Wv Hf).
  assert (S1 : slope_ok 1) by (split; vm_compute; discriminate).
  assert (Dx : is_double (inject_Z (v - off))) by (apply int_is_double; lia).
  assert (D1 : is_double (inject_Z (v - off) * 1)) by (apply (is_double_comp _ _ Dx); ring).
  assert (D2 : is_double (inject_Z (v - off) * 1 / 1)) by (apply (is_double_comp _ _ Dx); field).
  destruct (linear_to_val off 1 1 v Sp S1 S1) as (q & Q1 & Q2). exists (adapt_to l (ALinear off 1 1) v), q.
  split; [apply int_get_value; auto|]. split; [apply d_val_number; auto|]. split.
  - rewrite Q2. assert (E1 := round64_exact _ D1). assert (E2 := round64_exact _ D2).
    rewrite (round64_comp (round64 (inject_Z (v - off) * 1) / 1) (inject_Z (v - off) * 1 / 1)); [rewrite E2; field|rewrite E1; reflexivity].
  - apply (int_set_same _ _ _ _ _ _ _ _ _ _ v); auto. apply linear_back_exact; auto.
Qed.
Print Assumptions C66_write_back_offset.

Example C66_write_back_nonvacuous : has_value 2 1 (lit "a" ++ [byte_of 56; byte_of 255]) (-200) /\ pt_wf (PInt true 2 (-300) 24) = true
  /\ is_double (inject_Z (-200 - 7) * 1) /\ is_double (inject_Z (-200 - 7) * 1 / (1 # 4)).
Proof.
  split; [vm_compute; reflexivity|]. split; [reflexivity|]. split; [exists (-207), 0; split; [reflexivity|lia]|exists (-207), 2; split; [reflexivity|lia]].
Qed.

(** The documented requirement f(f'(a)) = a (LogarithmicParameterAdaptation.h:53) fails for the linear adaptation: with a
    numerator of 49, the value 1 is read as 1/49, and writing this double stores 0. *)
Theorem C66_write_back_refuted : exists a bb d bb', pt_wf (PInt false 1 0 100) = true /\ has_value 1 0 bb 1
  /\ decl_adaptation (el "LinearAdaptation" [("SlopeNumerator", "49")]%string []) = Ok a
  /\ forall l, int_get_dbl l (PInt false 1 0 100) [a] 0 bb = Ok d /\ int_set_dbl l (PInt false 1 0 100) [a] d 0 bb = Ok bb' /\ has_value 1 0 bb' 0.
Proof.
  eexists. exists [byte_of 1]. eexists. eexists. split; [reflexivity|]. split; [vm_compute; reflexivity|]. split; [vm_compute; reflexivity|].
  intros l. split; [vm_compute; reflexivity|]. split; [vm_compute; reflexivity|vm_compute; reflexivity].
Qed.
Print Assumptions C66_write_back_refuted.

(** With a minimum of 1, the double read from the parameter is refused. *)
Theorem C66_read_is_accepted_refuted : exists a bb d, pt_wf (PInt false 1 1 100) = true /\ has_value 1 0 bb 1
  /\ decl_adaptation (el "LinearAdaptation" [("SlopeNumerator", "49")]%string []) = Ok a
  /\ forall l, int_get_dbl l (PInt false 1 1 100) [a] 0 bb = Ok d /\ int_set_dbl l (PInt false 1 1 100) [a] d 0 bb = Err.
Proof.
  eexists. exists [byte_of 1]. eexists. split; [reflexivity|]. split; [vm_compute; reflexivity|]. split; [vm_compute; reflexivity|].
  intros l. split; [vm_compute; reflexivity|vm_compute; reflexivity].
Qed.
Print Assumptions C66_read_is_accepted_refuted.

(** Without an adaptation, an integer parameter has no double access. *)
Theorem C66_no_adaptation : forall l sg b lo hi d o bb, (o + b <= List.length bb)%nat ->
  int_set_dbl l (PInt sg b lo hi) [] d o bb = Err /\ int_get_dbl l (PInt sg b lo hi) [] o bb = Err.
Proof.
  intros l sg b lo hi d o bb Ho. split; [reflexivity|]. unfold int_get_dbl. rewrite BlackboardProofs.bb_read_int_fits by auto. reflexivity.
Qed.
Print Assumptions C66_no_adaptation.

(** A number too large for the conversion to a 64 bit integer, an infinity or a NaN is not refused: the conversion is undefined. *)
Theorem C66_out_of_range_refuted : exists a, pt_wf (PInt true 4 (-100) 100) = true
  /\ decl_adaptation (el "LinearAdaptation" [] []) = Ok a
  /\ forall l d, In d [DFin (round64 (inject_Z (10 ^ 30))); DInf false; DNan] ->
       int_set_dbl l (PInt true 4 (-100) 100) [a] d 0 [zero; zero; zero; zero] = UB.
Proof.
  eexists. split; [reflexivity|]. split; [vm_compute; reflexivity|].
  intros l d [<-|[<-|[<-|[]]]]; vm_compute; reflexivity.
Qed.
Print Assumptions C66_out_of_range_refuted.

(** A logarithmic adaptation never stores less than its floor. *)
Theorem C66_floor : forall l sg b lo hi off num den base fl rest d o bb bb' v f, pt_wf (PInt sg b lo hi) = true ->
  int_set_dbl l (PInt sg b lo hi) (ALog off num den base (Some fl) :: rest) d o bb = Ok bb' -> lo <= v <= hi -> has_value b o bb' v ->
  truncated fl f -> f <= v.
Proof.
  intros l sg b lo hi off num den base fl rest d o bb bb' v f Hw H Hv V T. pose proof Hw as W. apply pt_wf_int in W. destruct W as (Hb & W1 & W2 & W3).
  destruct (int_set_inv _ _ _ _ _ _ _ _ _ _ _ Hb H) as (i & A & B & C & _). rewrite (one_value sg b o bb' v i); auto; [|lia|lia].
  cbn [adapt_from] in A. destruct (linear_from off num den _) as [j| | |]; try discriminate. cbn [obind] in A.
  unfold d_to_int64 in A. cbn [d_val] in A. destruct (fits64 (q_trunc fl)); [|discriminate]. cbn [obind] in A. injection A as <-.
  rewrite (truncated_one fl f (q_trunc fl) T (q_trunc_spec fl)). lia.
Qed.
Print Assumptions C66_floor.

Example C66_floor_nonvacuous : exists bb', let l := Libm (fun _ => DFin 1) (fun d => d) in
  int_set_dbl l (PInt true 1 (-96) 0) [ALog 0 20 1 10 (Some ((-191) # 2))] (DFin 0) 0 [zero] = Err
  /\ int_set_dbl (Libm (fun d => if Qeq_bool 10 (match d with DFin q => q | _ => 0%Q end) then DFin 1 else DFin (-1000)) (fun d => d))
       (PInt true 1 (-96) 0) [ALog 0 20 1 10 (Some ((-191) # 2))] (DFin 0) 0 [zero] = Ok bb' /\ has_value 1 0 bb' (-95)
  /\ truncated ((-191) # 2) (-95).
Proof.
  eexists. split; [vm_compute; reflexivity|]. split; [vm_compute; reflexivity|]. split; [vm_compute; reflexivity|]. split; [vm_compute; discriminate|]. split; [vm_compute; reflexivity|vm_compute; discriminate].
Qed.

(** A logarithmic adaptation without a floor is a valid declaration: its floor is minus infinity, and the conversion of minus
    infinity to an integer makes every setting undefined. *)
Theorem C66_no_floor_refuted : exists a, decl_adaptation (el "LogarithmicAdaptation" [("LogarithmBase", "10")]%string []) = Ok a
  /\ forall l sg b lo hi d o bb, int_set_dbl l (PInt sg b lo hi) [a] d o bb = UB.
Proof.
  eexists. split; [vm_compute; reflexivity|]. intros l sg b lo hi d o bb. unfold int_set_dbl, int_of_dbl. cbn [adapt_from].
  set (x := d_div _ _). clearbody x.
  assert (K : (exists i, linear_from 0 1 1 x = Ok i) \/ linear_from 0 1 1 x = UB).
  { unfold linear_from, base_from, d_to_int64. destruct (d_val _); [|auto]. destruct (fits64 _); [|auto]. cbn [obind]. destruct (fits64 _); eauto. }
  destruct K as [[i E]|E]; rewrite E; reflexivity.
Qed.
Print Assumptions C66_no_floor_refuted.

(** The schema gives 10 as the default of LogarithmBase; the code uses e. *)
Theorem C66_default_base_refuted : exists off num den base fl,
  decl_adaptation (el "LogarithmicAdaptation" [("FloorValue", "-96")]%string []) = Ok (ALog off num den base fl) /\ ~ (base == 10)%Q /\ (base < 3)%Q.
Proof. do 5 eexists. split; [vm_compute; reflexivity|]. split; [vm_compute; discriminate|vm_compute; reflexivity]. Qed.
Print Assumptions C66_default_base_refuted.

(** A null denominator is refused, a null numerator is not: nothing can be told from what is read, be it an infinity or a NaN. *)
Theorem C66_null_slope_refuted : exists a, decl_adaptation (el "LinearAdaptation" [("SlopeNumerator", "0")]%string []) = Ok a
  /\ decl_adaptation (el "LinearAdaptation" [("SlopeDenominator", "0")]%string []) = Err
  /\ forall l, int_get_dbl l (PInt false 1 0 100) [a] 0 [byte_of 5] = Ok (DInf false) /\ int_get_dbl l (PInt false 1 0 100) [a] 0 [byte_of 0] = Ok DNan
       /\ int_set_dbl l (PInt false 1 0 100) [a] DNan 0 [byte_of 5] = UB.
Proof.
  eexists. split; [vm_compute; reflexivity|]. split; [vm_compute; reflexivity|]. intros l. split; [vm_compute; reflexivity|]. split; vm_compute; reflexivity.
Qed.
Print Assumptions C66_null_slope_refuted.
