(** C155-C158: exp is increasing, exp(-x) against 1/exp(x), pow(fixed, fixed) against the real power, exp and log undo each other.
    Only statements; the proofs are in ExpMono.v and PowReal.v.  [ulp f] is 2^-f. *)
From Coq Require Import ZArith Reals Lra Lia.
From Interval Require Import Tactic.
From Verif Require Import Base Fixed Math Spec SpecReal ExpMono PowReal.
Open Scope R_scope.

(** C155: not across zero: one ulp below zero gives 65537, zero 65536, one ulp above zero 65535 *)
Theorem C155_zero_refuted : exists m m' a b c, valid F32 m = true /\ valid F32 m' = true /\ (m < 0 < m')%Z /\
  fx_exp F32 m = Ok a /\ fx_exp F32 0 = Ok b /\ fx_exp F32 m' = Ok c /\ (c < b < a)%Z.
Proof. exact exp_mono_refuted. Qed.
(** on each side of zero it never decreases, and across zero by at most 2 (9705) raw units *)
Theorem C155_mono32 : forall m m', (m <= m')%Z -> exp (Rabs (rval 16 m)) < 32768 -> exp (Rabs (rval 16 m')) < 32768 ->
  exists a b, fx_exp F32 m = Ok a /\ fx_exp F32 m' = Ok b /\ (a <= b + 2)%Z /\ ((0 < m \/ m' < 0)%Z -> (a <= b)%Z).
Proof. exact exp_mono32_thm. Qed.
Theorem C155_mono64 : forall m m', (m <= m')%Z -> exp (Rabs (rval 32 m)) < 2147483648 -> exp (Rabs (rval 32 m')) < 2147483648 ->
  exists a b, fx_exp F64 m = Ok a /\ fx_exp F64 m' = Ok b /\ (a <= b + 9705)%Z /\ ((0 < m \/ m' < 0)%Z -> (a <= b)%Z).
Proof. exact exp_mono64_thm. Qed.
Example C155_case : exp (Rabs (rval 16 98304)) < 32768 /\ fx_exp F32 98304 = Ok 249165%Z /\ fx_exp F32 131072 = Ok 484239%Z /\
  fx_exp F32 (-98304) = Ok 17237%Z /\ fx_exp F32 (-65535) = Ok 29546%Z.
Proof. split; [unfold rval; change (IZR (2 ^ 16)) with 65536; interval|]. vm_compute. repeat split. Qed.
Print Assumptions C155_zero_refuted.
Print Assumptions C155_mono32.
Print Assumptions C155_mono64.

(** C156: exp(-x) is 1/exp(x) cut off to a multiple of the ulp, for the value exp(x) the library computes *)
Theorem C156_recip32 : forall m, (0 < m)%Z -> exp (rval 16 m) < 32768 ->
  exists a b, fx_exp F32 m = Ok a /\ fx_exp F32 (- m) = Ok b /\ rval 16 b * rval 16 a <= 1 < (rval 16 b + ulp 16) * rval 16 a.
Proof. exact exp_inverse32_thm. Qed.
Theorem C156_recip64 : forall m, (0 < m)%Z -> exp (rval 32 m) < 2147483648 ->
  exists a b, fx_exp F64 m = Ok a /\ fx_exp F64 (- m) = Ok b /\ rval 32 b * rval 32 a <= 1 < (rval 32 b + ulp 32) * rval 32 a.
Proof. exact exp_inverse64_thm. Qed.
Example C156_case : exp (rval 16 98304) < 32768 /\ fx_exp F32 98304 = Ok 249165%Z /\ fx_exp F32 (-98304) = Ok 17237%Z /\
  (17237 * 249165 <= 65536 * 65536 < 17238 * 249165)%Z.
Proof. split; [unfold rval; change (IZR (2 ^ 16)) with 65536; interval|]. split; [vm_compute; reflexivity|]. split; [vm_compute; reflexivity|]. lia. Qed.
Print Assumptions C156_recip32.
Print Assumptions C156_recip64.

(** C157: 2 to the power 65535/65536 (which is 1.99998) comes out as 1.6534, and 1/2 to that power (0.500005) as 0.6048 *)
Theorem C157_pow_refuted : exists e r s, valid F32 e = true /\ rval 16 e = 65535 / 65536 /\ fx_pow F32 131072 e = Ok r /\ fx_pow F32 32768 e = Ok s /\
  rval 16 r < 1.6534 /\ 1.9999 < Rpower 2 (rval 16 e) /\ 0.6048 < rval 16 s /\ Rpower (/ 2) (rval 16 e) < 0.50001.
Proof.
  exists 65535%Z, 108352%Z, 39638%Z. split; [reflexivity|]. split; [reflexivity|]. split; [vm_compute; reflexivity|]. split; [vm_compute; reflexivity|].
  unfold rval, Rpower. change (IZR (2 ^ 16)) with 65536. split; [lra|]. split; [interval|]. split; [lra|interval].
Qed.
(** never more than 18.5% below or 0.013% above the real power when the base is at least 1; e * ulp is the rounding of the e multiplications *)
Theorem C157_pow_ge1_32 : forall b e, valid F32 b = true -> valid F32 e = true -> 0 <= rval 16 e -> 1 <= rval 16 b <= 32760 ->
  Rpower (rval 16 b) (rval 16 e) <= 32760 ->
  exists r, fx_pow F32 b e = Ok r /\ valid F32 r = true /\
  (0.8156 * (1 - rval 16 e * ulp 16) - ulp 16) * Rpower (rval 16 b) (rval 16 e) - ulp 16 <= rval 16 r <= 1.00013 * Rpower (rval 16 b) (rval 16 e).
Proof. exact pow32_ge1. Qed.
Theorem C157_pow_ge1_64 : forall b e, valid F64 b = true -> valid F64 e = true -> 0 <= rval 32 e -> 1 <= rval 32 b <= 2147483600 ->
  Rpower (rval 32 b) (rval 32 e) <= 2147483600 ->
  exists r, fx_pow F64 b e = Ok r /\ valid F64 r = true /\
  (0.8158 * (1 - rval 32 e * ulp 32) - ulp 32) * Rpower (rval 32 b) (rval 32 e) - ulp 32 <= rval 32 r <= (1 + 16 * ulp 32) * Rpower (rval 32 b) (rval 32 e).
Proof. exact pow64_ge1. Qed.
(** and from the other side, up to 22.7% above, when it is at most 1 *)
Theorem C157_pow_le1_32 : forall b e, valid F32 b = true -> valid F32 e = true -> 0 <= rval 16 e -> 1 <= 32760 * rval 16 b -> rval 16 b <= 1 ->
  exists r, fx_pow F32 b e = Ok r /\ valid F32 r = true /\
  0.9998 * Rpower (rval 16 b) (rval 16 e) - (2 + 1.226 * rval 16 e) * ulp 16 <= rval 16 r <=
  1.2262 * Rpower (rval 16 b) (rval 16 e) + 1.226 * rval 16 e * ulp 16.
Proof. exact pow32_le1. Qed.
Theorem C157_pow_le1_64 : forall b e, valid F64 b = true -> valid F64 e = true -> 0 <= rval 32 e -> 1 <= 2147483600 * rval 32 b -> rval 32 b <= 1 ->
  exists r, fx_pow F64 b e = Ok r /\ valid F64 r = true /\
  (1 - 17 * ulp 32) * Rpower (rval 32 b) (rval 32 e) - (2 + 1.226 * rval 32 e) * ulp 32 <= rval 32 r <=
  1.2261 * Rpower (rval 32 b) (rval 32 e) + 1.226 * rval 32 e * ulp 32.
Proof. exact pow64_le1. Qed.
Example C157_case : valid F32 178145 = true /\ Rpower (rval 16 178145) (rval 16 229376) <= 32760 /\ fx_pow F32 178145 229376 = Ok 1841068%Z /\
  fx_pow F32 32768 229376 = Ok 6601%Z.
Proof. split; [reflexivity|]. split; [unfold rval, Rpower; change (IZR (2 ^ 16)) with 65536; interval|]. vm_compute. split; reflexivity. Qed.
Print Assumptions C157_pow_refuted.
Print Assumptions C157_pow_ge1_32.
Print Assumptions C157_pow_ge1_64.
Print Assumptions C157_pow_le1_32.
Print Assumptions C157_pow_le1_64.

(** C158: log(exp(65535/65536)) is 0.7967 *)
Theorem C158_log_exp_refuted : exists m a l, valid F32 m = true /\ rval 16 m = 65535 / 65536 /\ fx_exp F32 m = Ok a /\ fx_log F32 a = Ok l /\ rval 16 l < 0.7967.
Proof. exists 65535%Z, 145365%Z, 52208%Z. split; [reflexivity|]. split; [reflexivity|]. split; [vm_compute; reflexivity|]. split; [vm_compute; reflexivity|].
  unfold rval. change (IZR (2 ^ 16)) with 65536. lra. Qed.
(** it is at most 0.204 low and 8 (15) ulp high *)
Theorem C158_log_exp32 : forall m, valid F32 m = true -> 0 <= rval 16 m -> exp (rval 16 m) < 32768 ->
  exists a l, fx_exp F32 m = Ok a /\ fx_log F32 a = Ok l /\ valid F32 l = true /\ -0.2038 <= rval 16 l - rval 16 m <= 8 * ulp 16.
Proof. exact log_exp32. Qed.
Theorem C158_log_exp64 : forall m, valid F64 m = true -> 0 <= rval 32 m -> exp (rval 32 m) < 2147483648 ->
  exists a l, fx_exp F64 m = Ok a /\ fx_log F64 a = Ok l /\ valid F64 l = true /\ -0.2035 <= rval 32 l - rval 32 m <= 15 * ulp 32.
Proof. exact log_exp64. Qed.
(** the other way round *)
Theorem C158_exp_log32 : forall b, valid F32 b = true -> rval 16 b <= 32760 -> 1 <= 32760 * rval 16 b ->
  exists l r, fx_log F32 b = Ok l /\ fx_exp F32 l = Ok r /\ valid F32 r = true /\
  (1 <= rval 16 b -> 0.8156 * rval 16 b - ulp 16 <= rval 16 r <= 1.00013 * rval 16 b) /\
  (rval 16 b <= 1 -> 0.9998 * rval 16 b - ulp 16 <= rval 16 r <= 1.2262 * rval 16 b).
Proof. exact exp_log32. Qed.
Theorem C158_exp_log64 : forall b, valid F64 b = true -> rval 32 b <= 2147483600 -> 1 <= 2147483600 * rval 32 b ->
  exists l r, fx_log F64 b = Ok l /\ fx_exp F64 l = Ok r /\ valid F64 r = true /\
  (1 <= rval 32 b -> 0.8158 * rval 32 b - ulp 32 <= rval 32 r <= (1 + 16 * ulp 32) * rval 32 b) /\
  (rval 32 b <= 1 -> (1 - 16 * ulp 32) * rval 32 b - ulp 32 <= rval 32 r <= 1.2261 * rval 32 b).
Proof. exact exp_log64. Qed.
Example C158_case : exp (rval 16 131072) < 32768 /\ fx_exp F32 131072 = Ok 484239%Z /\ fx_log F32 484239 = Ok 131069%Z /\
  fx_log F32 131072 = Ok 45426%Z.
Proof. split; [unfold rval; change (IZR (2 ^ 16)) with 65536; interval|]. vm_compute. repeat split. Qed.
Print Assumptions C158_log_exp_refuted.
Print Assumptions C158_log_exp32.
Print Assumptions C158_log_exp64.
Print Assumptions C158_exp_log32.
Print Assumptions C158_exp_log64.
