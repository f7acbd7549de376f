(** Property theorems C88-C90, C105-C107: the ext/ integer and SIMD headers.  Statements only; proofs are in ExtProofs.v
    and ExtThms.v. *)
From Coq Require Import ZArith Bool QArith Reals.
From Verif Require Import Base Fixed Spec SpecReal Ext SpecExt ExtProofs ExtThms.
Open Scope Z_scope.

(** C88: without AVX-512 the lane product is the exact product truncated toward zero *)
Theorem C88_multiply : forall a b r, in_range int64 a = true -> in_range int64 b = true ->
  is_trunc 32 (qval 32 a * qval 32 b) r -> fits 64 true r -> unlane (mullo_fallback (lane a) (lane b)) = r.
Proof. exact fallback_trunc. Qed.
(** relation to the scalar product, which rounds down: one ulp more when the product is negative and inexact *)
Theorem C88_vs_scalar : forall a b r, in_range int64 a = true -> in_range int64 b = true -> fx_mul F64 a b = Ok r ->
  unlane (mullo_fallback (lane a) (lane b)) = wrap int64 (r + (if (a * b <? 0) && negb ((a * b) mod 2 ^ 32 =? 0) then 1 else 0)).
Proof. exact fallback_scalar. Qed.
(** the AVX-512 variant is right only when the raw product needs at most 64 bits *)
Theorem C88_avx512_small : forall a b, 0 <= a < 2 ^ 63 -> 0 <= b < 2 ^ 63 -> a * b < 2 ^ 64 ->
  unlane (mullo_512 (lane a) (lane b)) = Z.quot (a * b) (2 ^ 32).
Proof. exact mullo_512_small. Qed.
Theorem C88_avx512_refuted : exists a b, valid F64 a = true /\ valid F64 b = true /\ (qval 32 a == 1)%Q /\ (qval 32 b == 1)%Q /\
  unlane (mullo_512 (lane a) (lane b)) = 0.
Proof. exact mullo_512_refuted. Qed.
Example C88_case : unlane (mullo_fallback (lane (-3)) (lane (2 ^ 31))) = -1 /\ fx_mul F64 (-3) (2 ^ 31) = Ok (-2).
Proof. split; vm_compute; reflexivity. Qed.
Print Assumptions C88_multiply.
Print Assumptions C88_vs_scalar.

(** C89 *)
Theorem C89_reduce : forall x0 x1 x2 x3,
  valid F64 x0 = true -> valid F64 x1 = true -> valid F64 x2 = true -> valid F64 x3 = true ->
  exists r0 r1 r2 r3, simd_reduce_angle false (x0, x1, x2, x3) = Ok (r0, r1, r2, r3) /\
    reduced x0 r0 /\ reduced x1 r1 /\ reduced x2 r2 /\ reduced x3 r3.
Proof. exact C89_lemma. Qed.
(** large angles come back above 2*pi *)
Theorem C89_range_refuted : exists x r, valid F64 x = true /\ simd_reduce_angle false (x, x, x, x) = Ok (r, r, r, r) /\
  (2 * PI + 0.37 < rval 32 r)%R.
Proof. exact range_refuted. Qed.
(** the AVX-512 variant does not reduce: 7.0 comes back *)
Theorem C89_avx512_refuted : exists x r, valid F64 x = true /\ simd_reduce_angle true (x, x, x, x) = Ok (r, r, r, r) /\
  rval 32 x = 7%R /\ rval 32 r = 7%R.
Proof. exact avx512_refuted. Qed.
(** the two-lane version returns every pair of whole numbers unreduced and swapped *)
Theorem C89_two_lanes_refuted : forall a b, in_range int64 (a * 2 ^ 32) = true -> in_range int64 (b * 2 ^ 32) = true ->
  simd_reduce_angle_2 (a * 2 ^ 32, b * 2 ^ 32) = Ok (b * 2 ^ 32, a * 2 ^ 32).
Proof. exact reduce2_int. Qed.
Example C89_case : simd_reduce_angle false (7 * 2 ^ 32, 100 * 2 ^ 32, - (7 * 2 ^ 32), 0) =
  Ok (3078695664, 24705598480, -3078695664, 0).
Proof. vm_compute. reflexivity. Qed.
Print Assumptions C89_reduce.
Print Assumptions C89_two_lanes_refuted.

(** C90: addition is defined exactly when neither word sum overflows, and loses the carry *)
Theorem C90_add_defined : forall a b, xok a -> xok b ->
  xint_add a b = if in_range int64 (x_high a + x_high b) && in_range int64 (x_low a + x_low b)
                 then Ok {| x_high := x_high a + x_high b; x_low := x_low a + x_low b |} else UB.
Proof. exact xadd_eq. Qed.
Theorem C90_add_value : forall a b r, xok a -> xok b -> xint_add a b = Ok r ->
  xval r = xval a + xval b - (if 2 ^ 64 <=? x_low a mod 2 ^ 64 + x_low b mod 2 ^ 64 then 2 ^ 64 else 0).
Proof. exact xadd_value. Qed.
Theorem C90_of_value : forall v, - 2 ^ 63 <= v < 2 ^ 64 -> xval (xint_of v) = if v <? 0 then v + 2 ^ 64 else v.
Proof. exact xof_value. Qed.
Theorem C90_carry_refuted : exists a b r, xok a /\ xok b /\ xval a = 2 ^ 64 - 1 /\ xval b = 1 /\ xint_add a b = Ok r /\ xval r = 0.
Proof. exact xadd_refuted_carry. Qed.
Theorem C90_overflow_refuted : exists a b, xok a /\ xok b /\ xval a = 2 ^ 63 - 1 /\ xval b = 1 /\ xint_add a b = UB.
Proof. exact xadd_refuted_ub. Qed.
Theorem C90_negative_refuted : exists v, in_range int64 v = true /\ xval (xint_of v) <> v.
Proof. exact xof_refuted. Qed.
Example C90_case : xint_add (xint_pair 3 5) (xint_pair (-1) 7) = Ok {| x_high := 2; x_low := 12 |}.
Proof. vm_compute. reflexivity. Qed.
Print Assumptions C90_add_defined.
Print Assumptions C90_add_value.

(** C105 *)
Theorem C105_round_trip : forall v, in_range int64 v = true -> xint_to_int64 (xint_of v) = v.
Proof. exact xint_roundtrip. Qed.
Example C105_case : xint_to_int64 (xint_of (- 2 ^ 63)) = - 2 ^ 63.
Proof. vm_compute. reflexivity. Qed.
Print Assumptions C105_round_trip.

(** C106: saturation holds except for values in [2^63, 2^64) and for negative values in range *)
Theorem C106_saturates : forall a, xok a -> 0 <= x_low a \/ 0 < x_high a \/ xval a < - 2 ^ 63 ->
  x_high a <> -1 \/ xval a < - 2 ^ 63 ->
  xint_to_int64 a = Z.max (minv int64) (Z.min (maxv int64) (xval a)).
Proof. exact xint_sat. Qed.
Theorem C106_negative_refuted : exists a, xok a /\ xval a = -1 /\ xint_to_int64 a = - 2 ^ 63.
Proof. exact xint_sat_refuted. Qed.
Theorem C106_positive_refuted : exists a, xok a /\ xval a = 2 ^ 63 /\ xint_to_int64 a = - 2 ^ 63.
Proof. exact xint_sat_refuted'. Qed.
Example C106_case : xint_to_int64 (xint_pair 1 0) = 2 ^ 63 - 1 /\ xint_to_int64 (xint_pair (-2) 0) = - 2 ^ 63.
Proof. split; vm_compute; reflexivity. Qed.
Print Assumptions C106_saturates.

(** C107 *)
Theorem C107_integer_part : forall x, in_range int64 x = true -> unlane (fpint (lane x)) = Z.quot x (2 ^ 32) * 2 ^ 32.
Proof. exact fpint_eq. Qed.
Example C107_case : unlane (fpint (lane (- (3 * 2 ^ 31)))) = - 2 ^ 32 /\ unlane (fpint (lane (- 2 ^ 63))) = - 2 ^ 63.
Proof. split; vm_compute; reflexivity. Qed.
Print Assumptions C107_integer_part.
Print Assumptions C88_avx512_small.
Print Assumptions C88_avx512_refuted.
Print Assumptions C89_range_refuted.
Print Assumptions C89_avx512_refuted.
Print Assumptions C90_of_value.
Print Assumptions C90_carry_refuted.
Print Assumptions C90_overflow_refuted.
Print Assumptions C90_negative_refuted.
Print Assumptions C106_negative_refuted.
Print Assumptions C106_positive_refuted.
