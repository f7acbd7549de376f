(** C05, C06: the arguments the theorems in PropsFloat.v and PropsConv.v leave out.  Only statements; the proofs are in
    FillProofs.v. *)
From Coq Require Import ZArith QArith Qabs Bool List.
From Verif Require Import Base Fixed Float Spec SpecFp RefuteArith FillProofs.
Open Scope Z_scope.

(** C05: the negative arguments outside [C05_fp_negative] are the one just below half an ulp, ... *)
Theorem C05_fp_special : forall p c n k, wf c = true -> cr c = true -> 1 <= p -> 0 <= k ->
  (qval k (n * 2 ^ cf c) == - ((1 # 2) - qval (p + 1) 1))%Q ->
  fx_of_fval p c (Fin n k) = if in_range (ct c) (- 1) then Ok (- 1) else UB.
Proof. exact rounding_special. Qed.
Print Assumptions C05_fp_special.
(** ... the largest half-integer of the type, and integers: *)
Theorem C05_fp_large_cases : forall p c n k, wf c = true -> 2 <= p -> 0 <= k -> n < 0 -> fp_rep p (qval k n) ->
  (inject_Z (2 ^ (p - 1)) <= - qval k (n * 2 ^ cf c) + (1 # 2))%Q ->
  (- qval k (n * 2 ^ cf c) == inject_Z (2 ^ (p - 1)) - (1 # 2))%Q \/
  exists N, 2 ^ (p - 1) <= N /\ (qval k (n * 2 ^ cf c) == inject_Z (- N))%Q.
Proof. exact large_cases. Qed.
Print Assumptions C05_fp_large_cases.
(** the half-integer is rounded away from zero, *)
Theorem C05_fp_border : forall p c n k, wf c = true -> cr c = true -> 2 <= p -> 0 <= k -> n < 0 -> fp_rep p (qval k n) ->
  (- qval k (n * 2 ^ cf c) == inject_Z (2 ^ (p - 1)) - (1 # 2))%Q ->
  fx_of_fval p c (Fin n k) = if in_range (ct c) (- 2 ^ (p - 1)) then Ok (- 2 ^ (p - 1)) else UB.
Proof. exact rounding_border. Qed.
Print Assumptions C05_fp_border.
(** and integers are kept, except the odd ones below 2^p, which become even *)
Theorem C05_fp_large : forall p c n k N, wf c = true -> cr c = true -> 2 <= p -> 0 <= k -> fp_rep p (qval k n) ->
  2 ^ (p - 1) <= N -> (qval k (n * 2 ^ cf c) == inject_Z (- N))%Q ->
  fx_of_fval p c (Fin n k) = let m := - (if (N <? 2 ^ p) && Z.odd N then N + 1 else N) in if in_range (ct c) m then Ok m else UB.
Proof. exact rounding_large. Qed.
Print Assumptions C05_fp_large.
(** float -128.0000152587890625 = -(2^23 + 1) ulp *)
Example C05_fp_large_case : (qval 16 (-8388609 * 2 ^ 16) == inject_Z (- (2 ^ 23 + 1)))%Q /\
  fx_of_fval 24 F32r (Fin (-8388609) 16) = Ok (-8388610) /\ fx_of_fval 24 F32r (Fin (-256) 0) = Ok (-16777216).
Proof. repeat split. Qed.

(** C06, outside [C06_widening_exact] and [C06_widening_ub_iff]: a shift by the width of the promoted source type or more is
    undefined for every value, zero included, *)
Theorem C06_shift_undefined : forall dst src m, cf src <= cf dst -> bits (promote (ct src)) <= cf dst - cf src -> fx_of_fixed dst src m = UB.
Proof. exact widen_shift_ub. Qed.
Print Assumptions C06_shift_undefined.
(** a shift into the sign bit is undefined unless the raw value is 0 or 1, and gives the wrong sign for 1, *)
Theorem C06_shift_sign : forall dst src m, wf dst = true -> wf src = true -> valid src m = true -> sgn (promote (ct src)) = true ->
  cf dst - cf src = bits (promote (ct src)) - 1 ->
  fx_of_fixed dst src m = if (m =? 0) || (m =? 1) then Ok (wrap (ct dst) (- (m * 2 ^ (cf dst - cf src)))) else UB.
Proof. exact widen_sign. Qed.
Print Assumptions C06_shift_sign.
(** and for an unsigned promoted source type the product wraps silently *)
Theorem C06_unsigned : forall dst src m, wf dst = true -> wf src = true -> cf src <= cf dst -> cf dst - cf src < bits (promote (ct src)) ->
  valid src m = true -> sgn (promote (ct src)) = false ->
  exists v r, 0 <= v < 2 ^ bits (promote (ct src)) /\ cong (bits (promote (ct src))) v (m * 2 ^ (cf dst - cf src)) /\
    fx_of_fixed dst src m = Ok r /\ valid dst r = true /\ cong (bits (ct dst)) r v /\ (fits (bits (ct dst)) (sgn (ct dst)) v -> r = v).
Proof. exact widen_unsigned. Qed.
Print Assumptions C06_unsigned.
(** 1/2 as a 32-bit unsigned number with 1 fraction bit, to 64 bits with 32: 1/2 with the wrong sign for the signed source *)
Example C06_fill_case :
  let s := {| ct := int32; ci := int64; cf := 1; cr := false |} in
  let u := {| ct := uint32; ci := uint64; cf := 1; cr := false |} in
  wf s = true /\ wf u = true /\
  fx_of_fixed F64 s 1 = Ok (- 2 ^ 31) /\ fx_of_fixed F64 s 2 = UB /\
  fx_of_fixed F64 u 1 = Ok (2 ^ 31) /\ fx_of_fixed F64 u 2 = Ok 0.
Proof. repeat split. Qed.
