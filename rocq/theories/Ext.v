(** Model of include/eirin/ext/builtin_ints.hpp and include/eirin/ext/simd_math.hpp. *)
From Coq Require Import ZArith Bool List.
From Verif Require Import Base Fixed.
Import ListNotations.
Open Scope Z_scope.

(** ---- ext/builtin_ints.hpp: class int128 (lines 15-67) ---- *)
Record xint := { x_high : Z; x_low : Z }.   (* two int64_t members, lines 65-66 *)
(** lines 21-24: explicit int128(T), T integral of at most 8 bytes *)
Definition xint_of (v : Z) : xint := {| x_high := 0; x_low := wrap int64 v |}.
(** lines 26-29: from a floating value with integer part [n] (truncation); out of range is undefined *)
Definition xint_of_float (n : Z) : res xint :=
  if in_range int64 n then Ok {| x_high := 0; x_low := n |} else UB.
(** lines 31-34 *)
Definition xint_pair (h l : Z) : xint := {| x_high := wrap int64 h; x_low := wrap int64 l |}.
(** lines 36-44 *)
Definition high_bits (a : xint) : Z := x_high a.
Definition low_bits (a : xint) : Z := x_low a.
(** lines 46-55 *)
Definition xint_to_int64 (a : xint) : Z :=
  if x_high a >? 0 then maxv int64 else if x_high a <? 0 then minv int64 else x_low a.
(** lines 57-62 *)
Definition xint_add (a b : xint) : res xint :=
  let* h := c_add int64 int64 (x_high a) (x_high b) in
  let* l := c_add int64 int64 (x_low a) (x_low b) in
  Ok (xint_pair h l).

(** ---- ext/simd_math.hpp ----
    A 64-bit lane is its unsigned value in [0, 2^64).  The AVX2/SSE4.1 intrinsics used are lane-wise; their meaning is
    taken from the instruction-set documentation. *)
Definition M64 := 2 ^ 64.
Definition lane (v : Z) : Z := v mod M64.                 (* set1/set_epi64x, loads: int64_t -> lane *)
Definition unlane (v : Z) : Z := wrap int64 v.            (* extract_epi64: lane -> int64_t *)
Definition mm_add (a b : Z) := (a + b) mod M64.           (* _mm256_add_epi64 *)
Definition mm_sub (a b : Z) := (a - b) mod M64.           (* _mm256_sub_epi64, _mm_sub_epi64 *)
Definition mm_xor (a b : Z) := Z.lxor a b.                (* _mm256_xor_si256 *)
Definition mm_and (a b : Z) := Z.land a b.                (* _mm256_and_si256 *)
Definition mm_srli (a : Z) (k : Z) := a / 2 ^ k.          (* _mm256_srli_epi64, 0 <= k < 64 *)
Definition mm_slli (a : Z) (k : Z) := (a * 2 ^ k) mod M64. (* _mm256_slli_epi64, 0 <= k < 64 *)
Definition mm_mul_epu32 (a b : Z) := (a mod 2 ^ 32) * (b mod 2 ^ 32).   (* _mm256_mul_epu32 *)
Definition mm_mullo (a b : Z) := (a * b) mod M64.         (* _mm256_mullo_epi64 (AVX-512DQ) *)
Definition mm_mul_epi32 (a b : Z) := lane (wrap int32 a * wrap int32 b). (* _mm_mul_epi32: signed low halves *)

(** simd_math.hpp:115-117: avx_mm256_mullo_epi64 with AVX-512DQ *)
Definition mullo_512 (a b : Z) : Z := mm_srli (mm_mullo a b) 32.
(** simd_math.hpp:118-150: the same without *)
Definition mullo_fallback (a b : Z) : Z :=
  let sign_bit_a := mm_srli a 63 in
  let sign_mask_a := mm_sub 0 sign_bit_a in
  let sign_bit_b := mm_srli b 63 in
  let sign_mask_b := mm_sub 0 sign_bit_b in
  let abs_a := mm_sub (mm_xor a sign_mask_a) sign_mask_a in
  let abs_b := mm_sub (mm_xor b sign_mask_b) sign_mask_b in
  let low_mask := lane 0xFFFFFFFF in
  let a_lo := mm_and abs_a low_mask in
  let a_hi := mm_srli abs_a 32 in
  let b_lo := mm_and abs_b low_mask in
  let b_hi := mm_srli abs_b 32 in
  let lo_lo := mm_mul_epu32 a_lo b_lo in
  let hi_hi := mm_mul_epu32 a_hi b_hi in
  let hi_lo := mm_mul_epu32 a_hi b_lo in
  let lo_hi := mm_mul_epu32 a_lo b_hi in
  let mid := mm_add hi_lo lo_hi in
  let result := mm_add (mm_add mid (mm_slli hi_hi 32)) (mm_srli lo_lo 32) in
  let sign := mm_xor sign_mask_a sign_mask_b in
  mm_sub (mm_xor result sign) sign.
(** simd_math.hpp:113-151 *)
Definition simd_mul (avx512dq : bool) (a b : Z) : Z := if avx512dq then mullo_512 a b else mullo_fallback a b.

(** simd_math.hpp:153-169: _mm256_fpint_epi64 *)
Definition fpint (x : Z) : Z :=
  let sign_bit := mm_srli x 63 in
  let sign_mask := mm_sub 0 sign_bit in
  let abs_val := mm_sub (mm_xor x sign_mask) sign_mask in
  let integer_part := mm_slli (mm_srli abs_val 32) 32 in
  mm_sub (mm_xor integer_part sign_mask) sign_mask.

(** simd_math.hpp:191-192, 207-208: the constants.  The literals 2_f64 and 1_f64 are exact. *)
Definition two_pi64 : res Z := let* p := fx_pi F64 in let* two := fx_of_int F64 2 in fx_mul F64 p two.
Definition inv_two_pi64 : res Z := let* t := two_pi64 in let* one := fx_of_int F64 1 in fx_div F64 one t.

(** simd_math.hpp:188-197: one lane of __avx__simd_reduce_angle *)
Definition avx_reduce (dq : bool) (two_pi inv x : Z) : Z :=
  let n := fpint (simd_mul dq x (lane inv)) in
  mm_sub x (simd_mul dq n (lane two_pi)).
(** simd_math.hpp:220-226: set_epi64x takes the highest lane first, so lane k holds xs[k] *)
Definition simd_reduce_angle (dq : bool) (xs : Z * Z * Z * Z) : res (Z * Z * Z * Z) :=
  let* tp := two_pi64 in
  let* inv := inv_two_pi64 in
  let f x := unlane (avx_reduce dq tp inv (lane x)) in
  let '(x0, x1, x2, x3) := xs in Ok (f x0, f x1, f x2, f x3).

(** simd_math.hpp:204-215: one lane of __sse_simd_reduce_angle *)
Definition sse_reduce (two_pi inv x : Z) : Z :=
  let n := mm_mul_epi32 x (lane inv) in
  mm_sub x (mm_mul_epi32 n (lane two_pi)).
(** simd_math.hpp:228-234: r1 is extracted from lane 1 and r2 from lane 0 *)
Definition simd_reduce_angle_2 (xs : Z * Z) : res (Z * Z) :=
  let* tp := two_pi64 in
  let* inv := inv_two_pi64 in
  let '(x0, x1) := xs in
  let rv0 := sse_reduce tp inv (lane x0) in
  let rv1 := sse_reduce tp inv (lane x1) in
  Ok (unlane rv1, unlane rv0).
