(** Property theorems C25, C42-C44, C54: constants, exp, pow, angle conversion.  Statements only; proofs are in NumThms.v, ExpThms.v. *)
From Coq Require Import ZArith Bool QArith Qabs Reals Lra.
From Verif Require Import Base Fixed Math Numbers Spec SpecReal StdProofs RealThms NumThms ExpThms RefuteMath.
Open Scope R_scope.

(** C25.  [trunc_const f r x]: [r] is [Ok m] with value(m) <= x < value(m) + ulp. *)
Theorem C25_constants32 :
  trunc_const 16 (pi_v F32) PI /\ trunc_const 16 (e_v F32) (exp 1) /\ trunc_const 16 (ln2_v F32) (ln 2) /\ trunc_const 16 (ln10_v F32) (ln 10) /\
  trunc_const 16 (log2e_v F32) (/ ln 2) /\ trunc_const 16 (log10e_v F32) (/ ln 10) /\ trunc_const 16 (inv_pi_v F32) (/ PI) /\
  trunc_const 16 (inv_sqrtpi_v F32) (/ sqrt PI) /\ trunc_const 16 (sqrt2_v F32) (sqrt 2) /\ trunc_const 16 (sqrt3_v F32) (sqrt 3) /\
  trunc_const 16 (inv_sqrt3_v F32) (/ sqrt 3) /\ trunc_const 16 (phi_v F32) ((1 + sqrt 5) / 2) /\
  trunc_const 16 (fx_pi F32) PI /\ trunc_const 16 (fx_e F32) (exp 1) /\
  trunc_const 16 (fx_pi_2 F32) (PI / 2) /\ trunc_const 16 (fx_pi_4 F32) (PI / 4) /\ trunc_const 16 (fx_double_pi F32) (2 * PI).
Proof. exact constants32. Qed.
Theorem C25_constants64 :
  trunc_const 32 (pi_v F64) PI /\ trunc_const 32 (e_v F64) (exp 1) /\ trunc_const 32 (ln2_v F64) (ln 2) /\ trunc_const 32 (ln10_v F64) (ln 10) /\
  trunc_const 32 (log2e_v F64) (/ ln 2) /\ trunc_const 32 (log10e_v F64) (/ ln 10) /\ trunc_const 32 (inv_pi_v F64) (/ PI) /\
  trunc_const 32 (inv_sqrtpi_v F64) (/ sqrt PI) /\ trunc_const 32 (sqrt2_v F64) (sqrt 2) /\ trunc_const 32 (sqrt3_v F64) (sqrt 3) /\
  trunc_const 32 (inv_sqrt3_v F64) (/ sqrt 3) /\ trunc_const 32 (phi_v F64) ((1 + sqrt 5) / 2) /\
  trunc_const 32 (fx_pi F64) PI /\ trunc_const 32 (fx_e F64) (exp 1) /\
  trunc_const 32 (fx_pi_2 F64) (PI / 2) /\ trunc_const 32 (fx_pi_4 F64) (PI / 4) /\ trunc_const 32 (fx_double_pi F64) (2 * PI).
Proof. exact constants64. Qed.
Example C25_case : pi_v F32 = Ok 205887%Z /\ pi_v F64 = Ok 13493037704%Z.
Proof. split; vm_compute; reflexivity. Qed.
Print Assumptions C25_constants64.

(** C42: what is true of exp: exp(0) = 1, the result is positive, never above exp(x) and at most 18.42% below it for x >= 0, never (an ulp)
    below it and at most 22.6% above it for x < 0; at integral x it is accurate *)
Theorem C42_exp_zero : forall c, std c -> fx_exp c 0 = Ok (2 ^ cf c)%Z.
Proof. exact exp0. Qed.
Theorem C42_exp_bound32 : forall m, valid F32 m = true -> exp (Rabs (rval 16 m)) < 32768 ->
  exists r, fx_exp F32 m = Ok r /\ valid F32 r = true /\ 0 < rval 16 r /\
  (0 <= rval 16 m -> 0.8158 * exp (rval 16 m) - ulp 16 <= rval 16 r <= exp (rval 16 m)) /\
  (rval 16 m < 0 -> exp (rval 16 m) - ulp 16 < rval 16 r <= 1.226 * exp (rval 16 m)).
Proof. exact exp32_acc. Qed.
Theorem C42_exp_bound64 : forall m, valid F64 m = true -> exp (Rabs (rval 32 m)) < 2147483648 ->
  exists r, fx_exp F64 m = Ok r /\ valid F64 r = true /\ 0 < rval 32 r /\
  (0 <= rval 32 m -> 0.8159 * exp (rval 32 m) - ulp 32 <= rval 32 r <= exp (rval 32 m)) /\
  (rval 32 m < 0 -> exp (rval 32 m) - ulp 32 < rval 32 r <= 1.226 * exp (rval 32 m)).
Proof. exact exp64_acc. Qed.
Theorem C42_exp_integer32 : forall n, (0 <= n <= 10)%Z ->
  exists r, fx_exp F32 (n * 65536) = Ok r /\ Rabs (rval 16 r - exp (IZR n)) <= 5e-5 * exp (IZR n) + ulp 16.
Proof. exact exp32_int. Qed.
Example C42_case : valid F32 131072 = true /\ fx_exp F32 131072 = Ok 484239%Z /\ fx_exp F32 (-65536) = Ok 24109%Z.
Proof. vm_compute. repeat split. Qed.
Print Assumptions C42_exp_bound32.

(** C43: fixed32 exp is defined at every value but the least; non-negative arguments are defined in both types *)
Theorem C43_exp_defined32 : forall m, valid F32 m = true -> m <> MIN32 -> exists r, fx_exp F32 m = Ok r /\ valid F32 r = true.
Proof. exact exp32_total. Qed.
Theorem C43_exp_defined_nonneg : forall c m, std c -> valid c m = true -> (0 <= m)%Z -> exists r, fx_exp c m = Ok r /\ valid c r = true.
Proof. exact exp_nonneg_total. Qed.
Example C43_case : valid F32 (-2147483647) = true /\ (-2147483647)%Z <> MIN32 /\ fx_exp F32 (-2147483647) = Ok 2%Z.
Proof. vm_compute. repeat split; discriminate. Qed.
Print Assumptions C43_exp_defined32.

(** C44 *)
Theorem C44_pow_negative_refuted : exists b, valid F32 b = true /\ (qval 16 b == -2 # 1)%Q /\
  fx_pow F32 b 0 = Throw terminated /\ fx_pow F32 b 32768 = Throw terminated.
Proof. exact fxpow_neg_refuted. Qed.
(** every negative base ends the program (std::terminate), whatever the non-negative exponent *)
Theorem C44_pow_negative : forall c b e, std c -> valid c b = true -> (b < 0)%Z -> valid c e = true -> (0 <= e)%Z ->
  fx_pow c b e = Throw terminated.
Proof. exact pow_negative. Qed.
Theorem C44_pow_base_zero : forall c e, std c -> valid c e = true -> fx_pow c 0 e = Ok (if (e =? 0)%Z then 2 ^ cf c else 0)%Z.
Proof. exact pow_base0. Qed.
(** a positive base with an integral exponent gives the integer power, in particular pow(b,0) = 1 *)
Theorem C44_pow_integral_exponent : forall c b n, std c -> valid c b = true -> (0 < b)%Z -> valid c (n * 2 ^ cf c) = true ->
  fx_pow c b (n * 2 ^ cf c) = fx_pow_int c (ct c) b n.
Proof. exact pow_integer. Qed.
Theorem C44_pow_zero_exponent : forall c b, std c -> valid c b = true -> (0 <= b)%Z -> fx_pow c b 0 = Ok (2 ^ cf c)%Z.
Proof. exact pow_exp0. Qed.
Example C44_case : valid F32 98304 = true /\ fx_pow F32 98304 131072 = Ok 147456%Z /\ fx_pow F32 0 98304 = Ok 0%Z.
Proof. vm_compute. repeat split. Qed.
Print Assumptions C44_pow_integral_exponent.

(** C54 *)
Theorem C54_degrees32 : forall m, valid F32 m = true -> Rabs (rval 16 m * (180 / PI)) <= 32760 ->
  exists r, fx_degrees F32 m = Ok r /\ valid F32 r = true /\
  Rabs (rval 16 r - rval 16 m * (180 / PI)) <= 180 * ulp 16 + 2.1e-6 * Rabs (rval 16 m * (180 / PI)).
Proof. exact degrees32. Qed.
Theorem C54_degrees64 : forall m, valid F64 m = true -> Rabs (rval 32 m * (180 / PI)) <= 2147483647 ->
  exists r, fx_degrees F64 m = Ok r /\ valid F64 r = true /\
  Rabs (rval 32 r - rval 32 m * (180 / PI)) <= 180 * ulp 32 + 4e-11 * Rabs (rval 32 m * (180 / PI)).
Proof. exact degrees64. Qed.
Theorem C54_radians32 : forall m, valid F32 m = true ->
  exists r, fx_radians F32 m = Ok r /\ valid F32 r = true /\
  Rabs (rval 16 r - rval 16 m * (PI / 180)) <= 5 * ulp 16 + 2.1e-6 * Rabs (rval 16 m * (PI / 180)).
Proof. exact radians32. Qed.
Theorem C54_radians64 : forall m, valid F64 m = true ->
  exists r, fx_radians F64 m = Ok r /\ valid F64 r = true /\
  Rabs (rval 32 r - rval 32 m * (PI / 180)) <= 5 * ulp 32 + 4e-11 * Rabs (rval 32 m * (PI / 180)).
Proof. exact radians64. Qed.
Example C54_case : valid F32 65536 = true /\ fx_degrees F32 65536 = Ok 3754800%Z /\ fx_radians F32 11796480 = Ok 205887%Z.
Proof. vm_compute. repeat split. Qed.
Print Assumptions C54_degrees64.
Print Assumptions C25_constants32.
Print Assumptions C42_exp_zero.
Print Assumptions C42_exp_bound64.
Print Assumptions C42_exp_integer32.
Print Assumptions C43_exp_defined_nonneg.
Print Assumptions C44_pow_negative_refuted.
Print Assumptions C44_pow_negative.
Print Assumptions C44_pow_base_zero.
Print Assumptions C44_pow_zero_exponent.
Print Assumptions C54_degrees32.
Print Assumptions C54_radians32.
Print Assumptions C54_radians64.
