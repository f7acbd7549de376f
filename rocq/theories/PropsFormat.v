(** Property theorems C72-C78, C94-C99: std::format support.  Statements only; proofs are in FormatThms.v. *)
From Coq Require Import ZArith Bool String List QArith Qabs.
From Verif Require Import Base Fixed Spec SpecText SpecFormat Format ParseProofs FormatThms.
Import ListNotations.
Open Scope Z_scope.

(** C72: non-negative values, and negative integers not next to the minimum *)
Theorem C72_format_int : forall c st m up base, wf c = true -> valid c m = true -> fits 32 true (width_val st) ->
  radix_type (ftype st) up base ->
  let x := qval (cf c) m in
  ((0 <= x)%Q \/ is_int x) ->
  ((x < 0)%Q -> cf c <= bits (ct c) - 2 /\ (qval (cf c) (lo (bits (ct c)) true + 2 ^ cf c) <= x)%Q) ->
  exists neg n ds out, format_to c st m = Ok out /\ canon base ds n /\ (neg = true <-> (x < 0)%Q) /\ is_floor 0 (Qabs x) n /\
    let pre := sign_text (sign_mode st) neg ++ base_text (alt_form st) up base in
    let digits := map (digit_char up) ds in
    (zero_pad st = true -> zero_padded (width_val st) pre digits out) /\
    (zero_pad st = false -> padded (width_val st) (fill_ch st) (align_mode st) (pre ++ digits) out).
Proof. exact C72_lemma. Qed.
Example C72_case : format_to F32 (with_alt (with_type state0 120) true) (255 * 65536 + 1) = Ok (txt "0xff") /\
  format_to F32 (with_zero (with_width st_d 6) true) (-42 * 65536) = Ok (txt "-00042").
Proof. split; vm_compute; reflexivity. Qed.
(** -1.5 with type d prints -2, not -1 *)
Theorem C72_format_int_refuted : exists m, valid F32 m = true /\ (qval 16 m == (-3) # 2)%Q /\
  format_to F32 st_d m = Ok (txt "-2").
Proof. exact format_int_refuted. Qed.
Print Assumptions C72_format_int.

(** C73 *)
Theorem C73_format_dec : forall c st m, wf c = true -> valid c m = true -> fits 32 true (width_val st) ->
  10 * (2 ^ cf c - 1) <= hi (bits (ct c)) (sgn (ct c)) -> dec_type (ftype st) ->
  let x := qval (cf c) m in
  let prec := if precision st <? 0 then 6 else precision st in
  ((0 <= x)%Q \/ is_int x) ->
  ((x < 0)%Q -> cf c <= bits (ct c) - 2 /\ (qval (cf c) (lo (bits (ct c)) true + 2 ^ cf c) <= x)%Q) ->
  exists neg ip fp dot out, format_to c st m = Ok out /\ is_digits 10 ip /\ is_digits 10 fp /\
    (ip = [0] \/ exists d r, ip = d :: r /\ d <> 0) /\
    (neg = true <-> (x < 0)%Q) /\
    (dot = [] /\ is_int x /\ fp = [] \/ dot = [46] /\ (~ is_int x \/ fp <> [])) /\
    (let k := Z.of_nat (List.length fp) in
     k <= prec /\
     dec_trunc k (Qabs x) (num 10 (ip ++ fp)) /\
     (In (ftype st) [103; 71] -> (k = prec \/ (dval k (num 10 (ip ++ fp)) == Qabs x)%Q) /\
        ((dval k (num 10 (ip ++ fp)) == Qabs x)%Q -> fp = [] \/ exists d r, fp = r ++ [d] /\ d <> 0)) /\
     (In (ftype st) [102; 70] -> k = prec)) /\
    padded (width_val st) (if zero_pad st then 48 else fill_ch st) (align_mode st)
      (sign_text (sign_mode st) neg ++ dgs ip ++ dot ++ dgs fp) out.
Proof. exact C73_lemma. Qed.
Example C73_case : format_to F32 (st_f 3) 205887 = Ok (txt "3.141") /\ format_to F32 state0 (5 * 32768) = Ok (txt "2.5") /\
  format_to F64 (with_width (st_f 2) 8) (7 * 2 ^ 30) = Ok (txt "    1.75").
Proof. repeat split; vm_compute; reflexivity. Qed.
(** -1.5 with type g prints -2.5, not -1.5 *)
Theorem C73_format_dec_refuted : exists m, valid F32 m = true /\ (qval 16 m == (-3) # 2)%Q /\
  format_to F32 st_g m = Ok (txt "-2.5").
Proof. exact format_dec_refuted. Qed.
(** 3.25 with precision 0 prints "3." *)
Theorem C73_precision_zero_refuted : exists m, valid F32 m = true /\ (qval 16 m == 13 # 4)%Q /\
  format_to F32 (st_f 0) m = Ok (txt "3.").
Proof. exact format_prec0_refuted. Qed.
Print Assumptions C73_format_dec.

(** C74 *)
Theorem C74_format_debug : forall c st m, wf c = true -> valid c m = true -> fits 32 true (width_val st) -> ftype st = 63 ->
  exists neg ds out, format_to c st m = Ok out /\ (neg = true <-> m < 0) /\ canon 16 ds (Z.abs m) /\
    padded (width_val st) (if zero_pad st then 48 else fill_ch st) (align_mode st)
      (sign_text (sign_mode st) neg ++ base_text (alt_form st) false 16 ++ dgs ds) out.
Proof. exact C74_lemma. Qed.
Example C74_case : format_to F64 (with_alt (with_type state0 63) true) (- 2 ^ 63) = Ok (txt "-0x8000000000000000") /\
  valid F64 (- 2 ^ 63) = true.
Proof. split; vm_compute; reflexivity. Qed.
Print Assumptions C74_format_debug.

(** C75 *)
Theorem C75_format_width : forall c st m, wf c = true -> fits 32 true (width_val st) ->
  match format_to c (with_width st 0) m with
  | Ok natural =>
    exists out, format_to c st m = Ok out /\
      Z.of_nat (List.length out) = Z.max (width_val st) (Z.of_nat (List.length natural)) /\
      (zero_pad st = false -> padded (width_val st) (fill_ch st) (align_mode st) natural out) /\
      (zero_pad st = true -> is_radix (ftype st) = false -> padded (width_val st) 48 (align_mode st) natural out) /\
      (zero_pad st = true -> is_radix (ftype st) = true ->
        exists up base neg ds, radix_type (ftype st) up base /\ is_digits base ds /\ ds <> [] /\
          let pre := sign_text (sign_mode st) neg ++ base_text (alt_form st) up base in
          natural = pre ++ map (digit_char up) ds /\ zero_padded (width_val st) pre (map (digit_char up) ds) out)
  | r => format_to c st m = r
  end.
Proof. exact width_thm. Qed.
Example C75_case : format_to F32 (with_fill (with_align (with_width state0 8) 94) 42) 98304 = Ok (txt "**1.5***") /\
  format_to F32 state0 98304 = Ok (txt "1.5").
Proof. split; vm_compute; reflexivity. Qed.
Print Assumptions C75_format_width.

(** C76: every specification except those with fill ':', and the empty one before '<', '>', '^' *)
Theorem C76_parse : forall s rest, spec_ok s -> p_fill s <> Some 58 ->
  (spec_text s = [] -> match rest with c :: _ => ~ In c [60; 62; 94] | [] => True end) ->
  exists st, parse_spec (spec_text s ++ 125 :: rest) = Ok (st, 125 :: rest) /\
    fill_ch st = match p_fill s with Some v => v | None => 32 end /\
    align_mode st = match p_align s with Some v => v | None => 0 end /\
    sign_mode st = match p_sign s with Some v => v | None => 45 end /\
    alt_form st = p_alt s /\ zero_pad st = p_zero s /\
    width_val st = match p_width s with Some ds => num 10 ds | None => 0 end /\
    precision st = match p_prec s with Some ds => num 10 ds | None => -1 end /\
    ftype st = match p_type s with Some v => v | None => 103 end.
Proof. exact C76_lemma. Qed.
Example C76_case : match parse_spec (txt "*^+#012.3f} tail") with
  | Ok (st, rest) => fill_ch st = 42 /\ align_mode st = 94 /\ sign_mode st = 43 /\ alt_form st = true /\ zero_pad st = true /\
      width_val st = 12 /\ precision st = 3 /\ ftype st = 102 /\ rest = txt "} tail"
  | _ => False end.
Proof. vm_compute. repeat split; reflexivity. Qed.
Theorem C76_parse_refuted : spec_ok colon_spec /\ spec_text colon_spec = txt ":<8" /\
  exists st, parse_spec (spec_text colon_spec ++ txt "}") = Ok (st, txt "}") /\ fill_ch st <> 58.
Proof. exact parse_refuted. Qed.
Print Assumptions C76_parse.

(** C77 *)
Theorem C77_empty_spec : forall rest, match rest with c :: _ => ~ In c [60; 62; 94] | [] => True end ->
  parse_spec (125 :: rest) = Ok (state0, 125 :: rest).
Proof. exact parse_empty. Qed.
Theorem C77_empty_field : forall c m rest, match rest with c :: _ => ~ In c [60; 62; 94] | [] => True end ->
  format_field c m (125 :: rest) = (let* s := format_to c state0 m in Ok (s, rest)).
Proof. exact format_empty. Qed.
Example C77_case : format_field F32 98304 (txt "} and {}") = Ok (txt "1.5", txt " and {}").
Proof. vm_compute. reflexivity. Qed.
(** std::format("{}< ", x) throws *)
Theorem C77_empty_spec_refuted : exists rest, format_field F32 65536 (125 :: rest) = Throw format_error.
Proof. exact empty_refuted. Qed.
Print Assumptions C77_empty_field.

(** C78 *)
Theorem C78_unknown_type : forall s ch rest, spec_ok s -> p_type s = None -> p_fill s <> Some 58 ->
  ~ (48 <= ch <= 57) /\ ~ In ch (txt "<>^+- #.:") -> ~ In ch (txt "gGfFdxXobB?") -> ch <> 125 ->
  parse_spec (spec_text s ++ ch :: 125 :: rest) = Throw format_error.
Proof. exact parse_unknown. Qed.
Example C78_case : parse_spec (txt "s}") = Throw format_error /\ parse_spec (txt "+08.2e} x") = Throw format_error.
Proof. split; vm_compute; reflexivity. Qed.
Print Assumptions C78_unknown_type.

(** C94 *)
Theorem C94_negative_int : forall c st m up base, wf c = true -> valid c m = true -> fits 32 true (width_val st) ->
  radix_type (ftype st) up base ->
  let x := qval (cf c) m in
  (x < 0)%Q -> cf c <= bits (ct c) - 2 -> (qval (cf c) (lo (bits (ct c)) true + 2 ^ cf c) <= x)%Q ->
  exists n ds out, format_to c st m = Ok out /\ canon base ds n /\ is_ceil 0 (Qabs x) n /\
    let pre := 45 :: base_text (alt_form st) up base in
    let digits := map (digit_char up) ds in
    (zero_pad st = true -> zero_padded (width_val st) pre digits out) /\
    (zero_pad st = false -> padded (width_val st) (fill_ch st) (align_mode st) (pre ++ digits) out).
Proof. exact C94_int_lemma. Qed.
Theorem C94_negative_dec : forall c st m, wf c = true -> valid c m = true -> fits 32 true (width_val st) ->
  10 * (2 ^ cf c - 1) <= hi (bits (ct c)) (sgn (ct c)) -> dec_type (ftype st) ->
  let x := qval (cf c) m in
  let prec := if precision st <? 0 then 6 else precision st in
  (x < 0)%Q -> ~ is_int x -> cf c <= bits (ct c) - 2 -> (qval (cf c) (lo (bits (ct c)) true + 2 ^ cf c) <= x)%Q ->
  exists ip fp out, format_to c st m = Ok out /\ is_digits 10 ip /\ is_digits 10 fp /\
    (ip = [0] \/ exists d r, ip = d :: r /\ d <> 0) /\
    (let k := Z.of_nat (List.length fp) in
     k <= prec /\
     dec_trunc k (Qabs x + 1) (num 10 (ip ++ fp)) /\
     (In (ftype st) [103; 71] -> (k = prec \/ (dval k (num 10 (ip ++ fp)) == Qabs x + 1)%Q) /\
        ((dval k (num 10 (ip ++ fp)) == Qabs x + 1)%Q -> fp = [] \/ exists d r, fp = r ++ [d] /\ d <> 0)) /\
     (In (ftype st) [102; 70] -> k = prec)) /\
    padded (width_val st) (if zero_pad st then 48 else fill_ch st) (align_mode st) (45 :: dgs ip ++ 46 :: dgs fp) out.
Proof. exact C94_dec_lemma. Qed.
Example C94_case : format_to F64 (st_f 3) (- 2 ^ 30) = Ok (txt "-1.250").
Proof. vm_compute. reflexivity. Qed.
Print Assumptions C94_negative_dec.

(** C95 *)
Theorem C95_format_near_min_ub : forall c st m, wf c = true -> valid c m = true -> sgn (ct c) = true -> 32 <= bits (ct c) -> cf c <= bits (ct c) - 2 ->
  (qval (cf c) m < qval (cf c) (lo (bits (ct c)) true + 2 ^ cf c))%Q -> ftype st <> 63 ->
  format_to c st m = UB.
Proof. exact format_min_ub. Qed.
Example C95_case : format_to F32 state0 (- 2 ^ 31) = UB /\ format_to F32 state0 (- 2 ^ 31 + 65536) = Ok (txt "-32767").
Proof. split; vm_compute; reflexivity. Qed.
Print Assumptions C95_format_near_min_ub.

(** C96 *)
Theorem C96_zero_pad_before_sign : forall c st m natural, wf c = true -> fits 32 true (width_val st) -> zero_pad st = true ->
  is_radix (ftype st) = false -> format_to c (with_width st 0) m = Ok natural ->
  exists out, format_to c st m = Ok out /\ padded (width_val st) 48 (align_mode st) natural out.
Proof. exact zero_pad_dec. Qed.
Theorem C96_zero_pad_refuted : exists st m, zero_pad st = true /\ width_val st = 6 /\ align_mode st = 0 /\ valid F32 m = true /\
  format_to F32 (with_width st 0) m = Ok (txt "-2") /\ format_to F32 st m = Ok (txt "0000-2").
Proof. exact zero_pad_refuted. Qed.
Print Assumptions C96_zero_pad_before_sign.

(** C97 *)
Theorem C97_width_overflow_ub : forall ds rest, is_digits 10 ds -> (exists d r, ds = d :: r /\ d <> 0) -> 2147483647 < num 10 ds ->
  match rest with c :: _ => (c < 48 \/ 57 < c) /\ ~ In c [58; 60; 62; 94] | [] => True end ->
  parse_spec (dgs ds ++ rest) = UB.
Proof. exact width_over. Qed.
Theorem C97_precision_overflow_ub : forall ds rest, is_digits 10 ds -> 2147483647 < num 10 ds -> parse_spec (46 :: dgs ds ++ rest) = UB.
Proof. exact prec_over. Qed.
Example C97_case : parse_spec (txt "2147483648}") = UB /\ (exists st, parse_spec (txt "2147483647}") = Ok (st, txt "}")).
Proof. split; [vm_compute; reflexivity|]. eexists. vm_compute. reflexivity. Qed.
Print Assumptions C97_width_overflow_ub.

(** C98 *)
Theorem C98_colon_fill_lost : forall s rest, spec_ok s -> p_fill s = Some 58 ->
  exists st, parse_spec (spec_text s ++ 125 :: rest) = Ok (st, 125 :: rest) /\
    fill_ch st = 32 /\
    align_mode st = match p_align s with Some v => v | None => 0 end /\
    sign_mode st = match p_sign s with Some v => v | None => 45 end /\
    alt_form st = p_alt s /\ zero_pad st = p_zero s /\
    width_val st = match p_width s with Some ds => num 10 ds | None => 0 end /\
    precision st = match p_prec s with Some ds => num 10 ds | None => -1 end /\
    ftype st = match p_type s with Some v => v | None => 103 end.
Proof. exact C98_lemma. Qed.
Example C98_case : spec_ok colon_spec /\ p_fill colon_spec = Some 58.
Proof. split; [apply parse_refuted|reflexivity]. Qed.
Print Assumptions C98_colon_fill_lost.

(** C99 *)
Theorem C99_brace_swallowed : forall a st rest' rest, In a [60; 62; 94] -> parse_spec (125 :: a :: rest) = Ok (st, rest') ->
  fill_ch st = 125 /\ align_mode st = a /\ exists x, rest = x ++ rest'.
Proof. exact swallow. Qed.
Example C99_case : format_field F32 98304 (txt "}>8}") = Ok (txt "}}}}}1.5", []).
Proof. vm_compute. reflexivity. Qed.
Print Assumptions C99_brace_swallowed.
Print Assumptions C72_format_int_refuted.
Print Assumptions C73_format_dec_refuted.
Print Assumptions C73_precision_zero_refuted.
Print Assumptions C76_parse_refuted.
Print Assumptions C77_empty_spec.
Print Assumptions C77_empty_spec_refuted.
Print Assumptions C94_negative_int.
Print Assumptions C96_zero_pad_refuted.
Print Assumptions C97_precision_overflow_ub.
