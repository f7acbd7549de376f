(** C151-C154: periods and symmetries of the trigonometric functions.  Only statements; the proofs are in SymProofs.v.
    411774 = floor(2 pi * 2^16) and 26986075409 = floor(2 pi * 2^32) are the stored values of 2 pi. *)
From Coq Require Import ZArith QArith Reals Lra Lia.
From Verif Require Import Base Fixed Math Spec SpecReal RealThms SymProofs.
Open Scope R_scope.

(** C151: not for arguments below 1e-4, which are returned unchanged before the reduction, nor across zero *)
Theorem C151_sin_tiny_refuted : exists m a b, valid F32 m = true /\ valid F32 (m + 411774) = true /\ (0 < m)%Z /\
  fx_sin F32 m = Ok a /\ fx_sin F32 (m + 411774) = Ok b /\ a <> b.
Proof. exact sin_period_refuted. Qed.
Theorem C151_sin_across_refuted : exists m a b, valid F32 m = true /\ valid F32 (m + 411774) = true /\ (9 <= Z.abs m)%Z /\
  fx_sin F32 m = Ok a /\ fx_sin F32 (m + 411774) = Ok b /\ a <> b.
Proof. exact sin_period_zero_refuted. Qed.
(** otherwise any number of turns apart *)
Theorem C151_sin32 : forall m k, valid F32 m = true -> valid F32 (m + k * 411774) = true -> m <> MIN32 -> (m + k * 411774)%Z <> MIN32 ->
  (0 <= m * (m + k * 411774))%Z -> (9 <= Z.abs m)%Z -> (9 <= Z.abs (m + k * 411774))%Z ->
  exists r, fx_sin F32 m = Ok r /\ fx_sin F32 (m + k * 411774) = Ok r.
Proof. exact sin_period32. Qed.
Theorem C151_sin64 : forall m k, valid F64 m = true -> valid F64 (m + k * 26986075409) = true -> m <> MIN64 -> (m + k * 26986075409)%Z <> MIN64 ->
  (0 <= m * (m + k * 26986075409))%Z -> (644245 <= Z.abs m)%Z -> (644245 <= Z.abs (m + k * 26986075409))%Z ->
  exists r, fx_sin F64 m = Ok r /\ fx_sin F64 (m + k * 26986075409) = Ok r.
Proof. exact sin_period64. Qed.
(** cos turns its argument by three quarters (backwards, positive arguments) or one quarter, so its bounds are shifted *)
Theorem C151_cos32 : forall m k, valid F32 m = true -> valid F32 (m + k * 411774) = true ->
  (308840 <= m /\ 308840 <= m + k * 411774)%Z \/ (m <= -102952 /\ m + k * 411774 <= -102952)%Z ->
  exists r, fx_cos F32 m = Ok r /\ fx_cos F32 (m + k * 411774) = Ok r.
Proof. exact cos_period32. Qed.
Theorem C151_cos64 : forall m k, valid F64 m = true -> valid F64 (m + k * 26986075409) = true ->
  (20240200801 <= m /\ 20240200801 <= m + k * 26986075409)%Z \/ (m <= -6747163097 /\ m + k * 26986075409 <= -6747163097)%Z ->
  exists r, fx_cos F64 m = Ok r /\ fx_cos F64 (m + k * 26986075409) = Ok r.
Proof. exact cos_period64. Qed.
(** tan repeats too, poles included *)
Theorem C151_tan32 : forall m k, valid F32 m = true -> valid F32 (m + k * 411774) = true -> m <> MIN32 -> (m + k * 411774)%Z <> MIN32 ->
  (308840 <= m /\ 308840 <= m + k * 411774)%Z \/ (m <= -102952 /\ m + k * 411774 <= -102952)%Z ->
  fx_tan F32 (m + k * 411774) = fx_tan F32 m.
Proof. exact tan_period32. Qed.
Theorem C151_tan64 : forall m k, valid F64 m = true -> valid F64 (m + k * 26986075409) = true -> m <> MIN64 -> (m + k * 26986075409)%Z <> MIN64 ->
  (20240200801 <= m /\ 20240200801 <= m + k * 26986075409)%Z \/ (m <= -6747163097 /\ m + k * 26986075409 <= -6747163097)%Z ->
  fx_tan F64 (m + k * 26986075409) = fx_tan F64 m.
Proof. exact tan_period64. Qed.
Example C151_case : valid F32 (400000 + 5000 * 411774) = true /\ fx_sin F32 400000 = fx_sin F32 (400000 + 5000 * 411774) /\
  fx_cos F32 400000 = fx_cos F32 (400000 + 5000 * 411774) /\ fx_sin F32 400000 = Ok (-11709)%Z.
Proof. vm_compute. repeat split. Qed.
Print Assumptions C151_sin32.
Print Assumptions C151_cos64.
Print Assumptions C151_tan64.

(** C152 *)
Theorem C152_cos_refuted : exists m a b, valid F32 m = true /\ fx_cos F32 m = Ok a /\ fx_cos F32 (- m) = Ok b /\ a <> b.
Proof. exact cos_even_refuted. Qed.
Theorem C152_cos32 : forall m, valid F32 m = true -> m <> MIN32 -> exists a b, fx_cos F32 m = Ok a /\ fx_cos F32 (- m) = Ok b /\
  Rabs (rval 16 a - rval 16 b) <= 42 * ulp 16.
Proof. exact cos_even32_thm. Qed.
Theorem C152_cos64 : forall m, valid F64 m = true -> m <> MIN64 -> exists a b, fx_cos F64 m = Ok a /\ fx_cos F64 (- m) = Ok b /\
  Rabs (rval 32 a - rval 32 b) <= 6.3e-4.
Proof. exact cos_even64_thm. Qed.
Print Assumptions C152_cos32.
Print Assumptions C152_cos64.

(** C153 *)
Theorem C153_tan_refuted : exists m a b, valid F32 m = true /\ (9 <= Z.abs m)%Z /\ fx_tan F32 m = Ok a /\ fx_tan F32 (- m) = Ok b /\ b <> (- a)%Z.
Proof. exact tan_odd_refuted. Qed.
(** near zero it is even *)
Theorem C153_tan_tiny_refuted : exists m a, valid F32 m = true /\ (0 < a)%Z /\ fx_tan F32 m = Ok a /\ fx_tan F32 (- m) = Ok a.
Proof. exact tan_odd_tiny_refuted. Qed.
(** tan is odd wherever cos is even *)
Theorem C153_tan32 : forall m cs, valid F32 m = true -> m <> MIN32 -> (9 <= Z.abs m)%Z ->
  fx_cos F32 m = Ok cs -> fx_cos F32 (- m) = Ok cs -> (2 < Z.abs cs)%Z -> exists r, fx_tan F32 m = Ok r /\ fx_tan F32 (- m) = Ok (- r)%Z.
Proof. exact tan_odd32. Qed.
Theorem C153_tan64 : forall m cs, valid F64 m = true -> m <> MIN64 -> (644245 <= Z.abs m)%Z ->
  fx_cos F64 m = Ok cs -> fx_cos F64 (- m) = Ok cs -> (2 < Z.abs cs)%Z -> exists r, fx_tan F64 m = Ok r /\ fx_tan F64 (- m) = Ok (- r)%Z.
Proof. exact tan_odd64. Qed.
Example C153_case : fx_cos F32 52533 = fx_cos F32 (-52533) /\ fx_tan F32 52533 = Ok 67692%Z /\ fx_tan F32 (-52533) = Ok (-67692)%Z.
Proof. vm_compute. repeat split. Qed.
Print Assumptions C153_tan64.

(** C154: of -1 the sum of asin and acos is one ulp too large *)
Theorem C154_minus_one_refuted : exists m a b h, (qval 16 m == -1)%Q /\ fx_asin F32 m = Ok a /\ fx_acos F32 m = Ok b /\ fx_pi_2 F32 = Ok h /\ (a + b <> h)%Z.
Proof. exact acos_minus_one_refuted. Qed.
Theorem C154_asin_odd32 : forall m, Rabs (rval 16 m) <= 1 -> exists r, fx_asin F32 m = Ok r /\ fx_asin F32 (- m) = Ok (- r)%Z.
Proof. exact asin_odd32_thm. Qed.
Theorem C154_acos32 : forall m, Rabs (rval 16 m) < 1 -> exists a b b' h,
  fx_asin F32 m = Ok a /\ fx_acos F32 m = Ok b /\ fx_acos F32 (- m) = Ok b' /\ fx_pi_2 F32 = Ok h /\ (a + b = h /\ b + b' = 2 * h)%Z.
Proof. exact asin_acos32_thm. Qed.
(** fixed64: PropsAsin.v *)
Example C154_case : fx_asin F32 32768 = Ok 34309%Z /\ fx_asin F32 (-32768) = Ok (-34309)%Z /\ fx_acos F32 32768 = Ok 68634%Z /\
  fx_pi_2 F64 = Ok 6746518852%Z.
Proof. vm_compute. repeat split. Qed.
Print Assumptions C154_acos32.
