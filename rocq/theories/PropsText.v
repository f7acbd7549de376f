(** Property theorems C56-C71, C94: text output and input.  Statements only; proofs are in
    OutProofs.v, InProofs.v, RoundTrip.v, StreamProofs.v, RefuteText.v. *)
From Coq Require Import ZArith Bool String List QArith.
From Verif Require Import Base Fixed Spec SpecText TextOut TextIn OutProofs InProofs RoundTrip StreamProofs RefuteArith RefuteText.
Import ListNotations.
Open Scope Z_scope.

(** C56: with the dec flag, the exact canonical decimal expansion *)
Theorem C56_print_decimal : forall c m up, wf c = true -> valid c m = true -> sgn (ct c) = true ->
  10 * (2 ^ cf c - 1) <= hi (bits (ct c)) (sgn (ct c)) -> cf c <= bits (ct c) - 2 ->
  exists s, stream_out c false true false up m = Ok s /\ expansion 10 up s (qval (cf c) m).
Proof. exact print_dec. Qed.
Example C56_case : stream_out F32 false true false false (-1) = Ok (txt "-0.0000152587890625") /\
  stream_out F32 false true false false (-2147483648) = Ok (txt "-32768") /\
  stream_out F64 false true false false 10737418240 = Ok (txt "2.5") /\
  wf F64 = true /\ 10 * (2 ^ cf F64 - 1) <= hi 64 true /\ cf F64 <= 62.
Proof. vm_compute. repeat split; congruence. Qed.

(** C57: hex, oct, and no base flag (which this code prints in binary) *)
Theorem C57_print_bases : forall c m up hex oct, wf c = true -> valid c m = true -> sgn (ct c) = true ->
  cf c <= bits (ct c) - 2 ->
  exists s, stream_out c hex false oct up m = Ok s /\
    expansion (if hex then 16 else if oct then 8 else 2) up s (qval (cf c) m).
Proof. exact print_base. Qed.
(** the quantifier "every signed instantiation" fails when there is no integer bit *)
Theorem C57_no_integer_bit_refuted :
  wf Q31 = true /\ valid Q31 5 = true /\ stream_out Q31 false false false false 5 = UB.
Proof. exact print_q31_ub. Qed.
Example C57_case : stream_out F32 true false false true (-700000) = Ok (txt "-A.AE6") /\
  stream_out F32 false false true false 32769 = Ok (txt "0.400004") /\
  stream_out F32 false false false false 163840 = Ok (txt "10.1").
Proof. vm_compute. auto. Qed.

(** C58 *)
Theorem C58_print_injective : forall c m1 m2 up hex dec oct s, wf c = true -> valid c m1 = true -> valid c m2 = true ->
  sgn (ct c) = true -> cf c <= bits (ct c) - 2 -> 10 * (2 ^ cf c - 1) <= hi (bits (ct c)) (sgn (ct c)) ->
  stream_out c hex dec oct up m1 = Ok s -> stream_out c hex dec oct up m2 = Ok s -> m1 = m2.
Proof. exact print_inj. Qed.
Example C58_case : stream_out F32 false true false false 1 <> stream_out F32 false true false false 2.
Proof. vm_compute. congruence. Qed.

(** C59 *)
Theorem C59_unsigned_refuted : exists m s, wf U32 = true /\ valid U32 m = true /\ (qval 16 m == 32768)%Q /\
  stream_out U32 false true false false m = Ok s /\ s = txt "-4294934528".
Proof. exact print_unsigned_bad. Qed.
Theorem C59_unsigned_other : forall c m up hex dec oct, wf c = true -> valid c m = true -> sgn (ct c) = false ->
  cf c <= bits (ct c) - 1 -> 10 * (2 ^ cf c - 1) <= hi (bits (ct c)) (sgn (ct c)) -> m <> 2 ^ (bits (ct c) - 1) ->
  exists s, stream_out c hex dec oct up m = Ok s /\
    expansion (if hex then 16 else if dec then 10 else if oct then 8 else 2) up s (qval (cf c) m) /\ hd 0 s <> 45.
Proof. exact print_unsigned. Qed.
Example C59_case : stream_out U32 false true false false 4294967295 = Ok (txt "65535.9999847412109375").
Proof. vm_compute. auto. Qed.

(** C60: text [-]ip[.fp] in range.  The leading-zero bound keeps the divisor in the intermediate
    type (13 zeros for fixed32, 27 for fixed64). *)
Theorem C60_parse_accuracy : forall c neg ip fp old, wf c = true -> cf c <= 62 -> is_digits 10 ip ->
  is_digits 10 (frac_of fp) -> (neg = true -> sgn (ct c) = true) ->
  (numeral 10 false ip (frac_of fp) < qval (cf c) (hi (bits (ct c)) (sgn (ct c)) + 1))%Q ->
  10 ^ (leading_zeros (frac_of fp) + 1) * 2 ^ cf c <= hi (bits (ci c)) (sgn (ci c)) ->
  exists a, detail_parse c (dec_text neg ip fp) old = Ok (true, if neg then - a else a) /\ 0 <= a /\
    valid c (if neg then - a else a) = true /\
    (qval (cf c) a <= numeral 10 false ip (frac_of fp))%Q /\
    (numeral 10 false ip (frac_of fp) < qval (cf c) (a + 11))%Q.
Proof. exact parse_accurate. Qed.
(** the least value is in range but its literal is rejected *)
Theorem C60_min_refuted : valid F32 (-2147483648) = true /\
  stream_out F32 false true false false (-2147483648) = Ok (txt "-32768") /\
  forall old, detail_parse F32 (txt "-32768") old = Ok (false, old).
Proof. exact parse_min_bad. Qed.
Example C60_case : dec_text true [3] (Some [1;4;1;5;9;2;6;5]) = txt "-3.14159265" /\
  detail_parse F32 (txt "-3.14159265") 7 = Ok (true, -205887) /\
  10 ^ (leading_zeros [1;4;1;5;9;2;6;5] + 1) * 2 ^ cf F32 <= hi 64 true /\
  (numeral 10 false ([3]%Z) ([1;4;1;5;9;2;6;5]%Z) < qval 16 (hi 32 true + 1))%Q.
Proof. vm_compute. repeat split; congruence. Qed.

(** C61 *)
Theorem C61_parse_short : forall c neg ip fp old, wf c = true -> cf c <= 62 -> is_digits 10 ip ->
  is_digits 10 (frac_of fp) -> (neg = true -> sgn (ct c) = true) ->
  (numeral 10 false ip (frac_of fp) < qval (cf c) (hi (bits (ct c)) (sgn (ct c)) + 1))%Q ->
  10 ^ Z.of_nat (length (frac_of fp)) <= 2 ^ cf c ->
  exists m, detail_parse c (dec_text neg ip fp) old = Ok (true, m) /\ valid c m = true /\
    is_trunc (cf c) (numeral 10 neg ip (frac_of fp)) m.
Proof. exact parse_short. Qed.
Example C61_case : detail_parse F32 (txt "-12.3456") 7 = Ok (true, -809081) /\
  is_trunc 16 (numeral 10 true [1;2] [3;4;5;6]) (-809081) /\ 10 ^ 4 <= 2 ^ cf F32 /\
  detail_parse F64 (txt "2147483647") 7 = Ok (true, 9223372032559808512).
Proof. vm_compute. repeat split; congruence. Qed.

(** C62 *)
Theorem C62_false_keeps_target : forall c s old x, detail_parse c s old = Ok (false, x) -> x = old.
Proof. exact parse_false_keeps. Qed.
Theorem C62_f32_false_keeps_target : forall s old x, f32_from_cstring s old = Ok (false, x) -> x = old.
Proof. intros s old x. rewrite f32_agrees. apply parse_false_keeps. Qed.
(** a non-digit in the integer part; [num ds <= hi]: the digits before it do not overflow *)
Theorem C62_bad_integer_part : forall c (neg : bool) ds ch tail old, wf c = true -> is_digits 10 ds ->
  ch <> 46 -> check_ch ch = false -> (ds = [] -> neg = false -> ch <> 45) ->
  num 10 ds <= hi (bits (ci c)) (sgn (ci c)) ->
  detail_parse c ((if neg then [45] else []) ++ map (digit_char false) ds ++ ch :: tail) old = Ok (false, old).
Proof. exact parse_bad_int. Qed.
(** a non-digit in the fraction, before the digit cut-off *)
Theorem C62_bad_fraction : forall c (neg : bool) ip fp ch tail old, wf c = true -> cf c <= 62 ->
  is_digits 10 ip -> is_digits 10 fp ->
  check_ch ch = false -> (forall r d, fp = r ++ [d] -> num 10 r <= (2 ^ cf c - 1) / 10) ->
  num 10 ip <= hi (bits (ci c)) (sgn (ci c)) -> 10 ^ Z.of_nat (length fp) <= hi (bits (ci c)) (sgn (ci c)) ->
  detail_parse c ((if neg then [45] else []) ++ map (digit_char false) ip ++ 46 :: map (digit_char false) fp ++ ch :: tail) old
    = Ok (false, old).
Proof. exact parse_bad_frac. Qed.
Example C62_case : detail_parse F32 (txt "-12e3") 7 = Ok (false, 7) /\ detail_parse F32 (txt "1.23 ") 7 = Ok (false, 7) /\
  f32_from_cstring (txt "+1") 7 = Ok (false, 7).
Proof. vm_compute. auto. Qed.

(** C63: what an accepted string looks like.  Not excluded: empty digit strings, and anything after
    the digit at which the fraction is cut off. *)
Theorem C63_accepted_shape : forall c s old v, wf c = true -> cf c <= 62 -> detail_parse c s old = Ok (true, v) ->
  exists neg ip, is_digits 10 ip /\
   (s = dec_text neg ip None \/
    exists r tail, is_digits 10 r /\ s = dec_text neg ip (Some r) ++ tail /\
      (tail = [] \/ exists d t', tail = digit_char false d :: t' /\ 0 <= d < 10 /\ 2 ^ cf c <= 10 * num 10 r)).
Proof. exact parse_shape. Qed.
Theorem C63_malformed_refuted : forall old,
  detail_parse F32 (txt "") old = Ok (true, 0) /\ detail_parse F32 (txt "-") old = Ok (true, 0) /\
  detail_parse F32 (txt ".") old = Ok (true, 0) /\ detail_parse F32 (txt "0.99999x") old = Ok (true, 65529) /\
  fixed_from_cstring F32 (txt "12x") old = Ok (true, 786432).
Proof. exact accept_malformed. Qed.

(** C64 *)
Theorem C64_out_of_range_rejected : forall c neg ip fp old, wf c = true -> cf c <= 62 -> is_digits 10 ip ->
  is_digits 10 (frac_of fp) ->
  (qval (cf c) (hi (bits (ct c)) (sgn (ct c)) + 1) <= numeral 10 false ip (frac_of fp))%Q ->
  (num 10 ip + 1) * 2 ^ cf c <= hi (bits (ci c)) (sgn (ci c)) ->
  10 ^ (leading_zeros (frac_of fp) + 1) * 2 ^ cf c <= hi (bits (ci c)) (sgn (ci c)) ->
  detail_parse c (dec_text neg ip fp) old = Ok (false, old).
Proof. exact parse_rejects. Qed.
Theorem C64_out_of_range_refuted : forall old,
  detail_parse F32 (txt "281474976710656") old = Ok (true, 0) /\ detail_parse U32 (txt "-1") old = Ok (true, 4294901760).
Proof. exact accept_out_of_range. Qed.
Example C64_case : detail_parse F32 (txt "32768") 7 = Ok (false, 7) /\ detail_parse F64 (txt "-99999999999.5") 7 = Ok (false, 7) /\
  (32768 + 1) * 2 ^ cf F32 <= hi 64 true /\ (qval 16 (hi 32 true + 1) <= numeral 10 false ([3;2;7;6;8]%Z) [])%Q.
Proof. vm_compute. repeat split; congruence. Qed.

(** C65: defined for every string up to the length for which 10^length * 2^f fits (14 characters
    for fixed32, 28 for fixed64) *)
Theorem C65_parse_defined : forall c s old, wf c = true -> cf c <= 62 ->
  10 ^ Z.of_nat (length s) * 2 ^ cf c <= hi (bits (ci c)) (sgn (ci c)) ->
  exists r, detail_parse c s old = Ok r.
Proof. exact parse_defined. Qed.
Theorem C65_parse_ub_refuted : forall old,
  detail_parse F32 (txt "99999999999999999999") old = UB /\
  detail_parse F32 (txt "0.0000000000000000000001") old = UB /\
  detail_parse F32 (txt "-281474976677888") old = UB.
Proof. exact parse_ub. Qed.
Example C65_case : 10 ^ Z.of_nat (length (txt "-12345.6789012")) * 2 ^ cf F32 <= hi 64 true.
Proof. vm_compute. congruence. Qed.

(** C66 *)
Theorem C66_print_parse : forall c m up old, wf c = true -> valid c m = true -> sgn (ct c) = true -> cf c <= 62 ->
  cf c <= bits (ct c) - 2 -> 10 * (2 ^ cf c - 1) <= hi (bits (ct c)) (sgn (ct c)) -> m <> lo (bits (ct c)) (sgn (ct c)) ->
  exists s m', stream_out c false true false up m = Ok s /\ detail_parse c s old = Ok (true, m') /\
    (Z.abs m - 10 <= Z.abs m' <= Z.abs m) /\ 0 <= m' * m /\ ((2 ^ cf c | m) -> m' = m).
Proof. exact roundtrip. Qed.
Theorem C66_min_refuted : valid F32 (-2147483648) = true /\
  stream_out F32 false true false false (-2147483648) = Ok (txt "-32768") /\
  forall old, detail_parse F32 (txt "-32768") old = Ok (false, old).
Proof. exact parse_min_bad. Qed.
Example C66_case : stream_out F32 false true false false 65535 = Ok (txt "0.9999847412109375") /\
  detail_parse F32 (txt "0.9999847412109375") 7 = Ok (true, 65529).
Proof. vm_compute. auto. Qed.

(** C67 *)
Theorem C67_f32_agrees : forall s old, f32_from_cstring s old = detail_parse F32 s old.
Proof. exact f32_agrees. Qed.
Theorem C67_from_cstring_agrees : forall c neg ip fp old, wf c = true -> cf c <= 62 ->
  cf c <= bits (ct c) - (if sgn (ct c) then 2 else 1) -> is_digits 10 ip -> is_digits 10 (frac_of fp) ->
  fixed_from_cstring c (dec_text neg ip fp) old = detail_parse c (dec_text neg ip fp) old.
Proof. exact from_cstring_agrees. Qed.
Theorem C67_literal_agrees : forall c s old x, detail_parse c s old = Ok (true, x) -> literal c s old = Ok x.
Proof. intros c s old x H. unfold literal. rewrite H. reflexivity. Qed.
(** outside well-formed strings they differ *)
Example C67_case : forall old,
  detail_parse F32 (txt "12x") old = Ok (false, old) /\ fixed_from_cstring F32 (txt "12x") old = Ok (true, 786432).
Proof. exact cstring_disagree. Qed.

(** C68: the intermediate results of operator>> are kept in the store type *)
Theorem C68_stream_wrong_refuted : forall old, exists st, stream_in F32 (mk (txt "0.50000")) old = Ok (-10181, st) /\
  detail_parse F32 (txt "0.50000") old = Ok (true, 32768).
Proof. exact stream_wrong. Qed.
(** C68 and C70 where the fraction digits fit: value, digits consumed and state bits.  [u] are the
    digits left behind by the cut-off. *)
Theorem C68_stream_accuracy : forall c neg ip fp tail old, wf c = true ->
  cf c <= bits (ct c) - (if sgn (ct c) then 2 else 1) ->
  is_digits 10 ip -> is_digits 10 (frac_of fp) -> ascii tail -> stops tail ->
  (fp = None -> hd 0 tail <> 46) -> (neg = false -> ip = [] -> fp = None -> tail <> [] /\ hd 0 tail <> 45) ->
  (neg = true -> sgn (ct c) = true) ->
  (numeral 10 false ip (frac_of fp) < qval (cf c) (hi (bits (ct c)) (sgn (ct c)) + 1))%Q ->
  num 10 (frac_of fp) * 2 ^ cf c <= maxv (ct c) -> 10 ^ Z.of_nat (length (frac_of fp)) <= maxv (ct c) ->
  exists a u, stream_in c (mk (dec_text neg ip fp ++ tail)) old =
     Ok (if neg then - a else a, final (match fp with None => false | Some _ => true end) (map (digit_char false) u ++ tail)) /\
    0 <= a /\ (qval (cf c) a <= numeral 10 false ip (frac_of fp))%Q /\
    (numeral 10 false ip (frac_of fp) < qval (cf c) (a + 11))%Q /\
    (exists r, frac_of fp = r ++ u /\ (u = [] \/ 2 ^ cf c <= 10 * num 10 r)) /\
    (u = [] -> (numeral 10 false ip (frac_of fp) < qval (cf c) (a + 1))%Q).
Proof. exact stream_ok. Qed.
Example C68_case : stream_in F32 (mk (txt "-1.25,")) 7 = Ok (-81920, mk (txt ",")) /\
  stream_in F32 (mk (txt "1.32000 z")) 7 = Ok (86507, mk (txt " z")) /\
  num 10 [3;2;0;0;0] * 2 ^ cf F32 <= maxv int32.
Proof. vm_compute. repeat split; congruence. Qed.

(** C69 *)
Theorem C69_sequence_refuted :
  (exists st, stream_in F32 (mk (txt "1 2")) 7 = Ok (65536, st) /\ st = mk (txt " 2") /\ stream_in F32 st 7 = Ok (0, mk (txt " 2"))) /\
  (exists st, stream_in F32 (mk (txt "12")) 7 = Ok (786432, st) /\ failbit st = true) /\
  (exists st, stream_in F32 (mk (txt "abc")) 7 = Ok (0, st) /\ failbit st = false).
Proof. exact stream_sequence_bad. Qed.
(** what happens instead, for every non-number *)
Theorem C69_garbage_stores_zero : forall c ch tail old, wf c = true -> 0 <= ch < 128 -> check_ch ch = false ->
  ch <> 45 -> ch <> 46 -> stream_in c (mk (ch :: tail)) old = Ok (0, mk (ch :: tail)).
Proof. exact stream_garbage. Qed.

(** C70 follows from the same statement: everything up to the cut-off is consumed *)
Theorem C70_stream_consumes : forall c neg ip fp tail old, wf c = true ->
  cf c <= bits (ct c) - (if sgn (ct c) then 2 else 1) ->
  is_digits 10 ip -> is_digits 10 (frac_of fp) -> ascii tail -> stops tail ->
  (fp = None -> hd 0 tail <> 46) -> (neg = false -> ip = [] -> fp = None -> tail <> [] /\ hd 0 tail <> 45) ->
  (neg = true -> sgn (ct c) = true) ->
  (numeral 10 false ip (frac_of fp) < qval (cf c) (hi (bits (ct c)) (sgn (ct c)) + 1))%Q ->
  num 10 (frac_of fp) * 2 ^ cf c <= maxv (ct c) -> 10 ^ Z.of_nat (length (frac_of fp)) <= 2 ^ cf c ->
  exists v st, stream_in c (mk (dec_text neg ip fp ++ tail)) old = Ok (v, st) /\ rest st = tail /\
    is_trunc (cf c) (numeral 10 neg ip (frac_of fp)) v.
Proof. exact stream_consumes. Qed.
Example C70_case : stream_in F32 (mk (txt "-12.34+5")) 7 = Ok (-808714, mk (txt "+5")).
Proof. vm_compute. auto. Qed.

(** C71 *)
Theorem C71_consumes_to_terminator : forall term rst neg ip fp out, is_digits 10 ip -> is_digits 10 (frac_of fp) ->
  ~ In term (dec_text neg ip fp) ->
  (numeral 10 false ip (frac_of fp) < 32768)%Q ->
  num 10 (frac_of fp) < 32768 -> (length (frac_of fp) <= 9)%nat ->
  exists a u, io_parse (dec_text neg ip fp ++ term :: rst) (length (dec_text neg ip fp)) out =
     Ok ((length (dec_text neg ip fp) - length u)%nat, if neg then - a else a) /\
    0 <= a /\ (qval 16 a <= numeral 10 false ip (frac_of fp))%Q /\
    (numeral 10 false ip (frac_of fp) < qval 16 (a + 11))%Q /\
    (exists r, frac_of fp = r ++ u /\ (u = [] \/ 6554 <= num 10 r)) /\
    (u = [] -> (numeral 10 false ip (frac_of fp) < qval 16 (a + 1))%Q).
Proof. exact io_parse_ok. Qed.
Theorem C71_failure : forall term rst (neg : bool) ds ch tail out, is_digits 10 ds -> ch <> 46 -> check_ch ch = false ->
  (ds = [] -> neg = false -> ch <> 45) -> num 10 ds < 2 ^ 31 ->
  ~ In term ((if neg then [45] else []) ++ map (digit_char false) ds ++ ch :: tail) ->
  io_parse (((if neg then [45] else []) ++ map (digit_char false) ds ++ ch :: tail) ++ term :: rst)
    (length ((if neg then [45] else []) ++ map (digit_char false) ds ++ ch :: tail)) out = Ok (0%nat, out).
Proof. exact io_parse_bad. Qed.
Theorem C71_view_refuted :
  io_parse_view (txt "-1.25") [] 7 = UB /\
  io_parse_view (txt "-1.25") (txt "1") 7 = Ok (1%nat, 0) /\
  io_parse_view [] [0] 7 = Ok (0%nat, 0) /\
  io_parse_view (txt "40000") [0] 7 = Ok (5%nat, -1673527296).
Proof. exact io_parse_view_bad. Qed.
Example C71_case : io_parse_view (txt "-1.25") [0; 49; 50] 7 = Ok (5%nat, -81920) /\
  io_parse_view (txt "1x5") [0] 7 = Ok (0%nat, 7).
Proof. vm_compute. auto. Qed.

Print Assumptions C56_print_decimal.
Print Assumptions C57_print_bases.
Print Assumptions C57_no_integer_bit_refuted.
Print Assumptions C58_print_injective.
Print Assumptions C59_unsigned_refuted.
Print Assumptions C59_unsigned_other.
Print Assumptions C60_parse_accuracy.
Print Assumptions C60_min_refuted.
Print Assumptions C61_parse_short.
Print Assumptions C62_false_keeps_target.
Print Assumptions C62_f32_false_keeps_target.
Print Assumptions C62_bad_integer_part.
Print Assumptions C62_bad_fraction.
Print Assumptions C63_accepted_shape.
Print Assumptions C63_malformed_refuted.
Print Assumptions C64_out_of_range_rejected.
Print Assumptions C64_out_of_range_refuted.
Print Assumptions C65_parse_defined.
Print Assumptions C65_parse_ub_refuted.
Print Assumptions C66_print_parse.
Print Assumptions C66_min_refuted.
Print Assumptions C67_f32_agrees.
Print Assumptions C67_from_cstring_agrees.
Print Assumptions C67_literal_agrees.
Print Assumptions C68_stream_wrong_refuted.
Print Assumptions C68_stream_accuracy.
Print Assumptions C69_sequence_refuted.
Print Assumptions C69_garbage_stores_zero.
Print Assumptions C70_stream_consumes.
Print Assumptions C71_consumes_to_terminator.
Print Assumptions C71_failure.
Print Assumptions C71_view_refuted.
