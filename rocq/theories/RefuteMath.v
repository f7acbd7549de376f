(** Counterexamples: claims about math.hpp that the code does not satisfy. *)
From Coq Require Import ZArith Bool List Lia QArith Qabs.
From Verif Require Import Base Fixed Math Spec BaseLemmas SpecLemmas NewtonProofs.
Open Scope Z_scope.

(** 12.20 over int32_t *)
Definition I32_20 : cfg := {| ct := int32; ci := int64; cf := 20; cr := false |}.

Lemma floor_refuted : exists m, valid F32 m = true /\ (qval 16 m == inject_Z (-32768))%Q /\ fx_floor F32 m = UB.
Proof. exists (-2147483648). vm_compute. repeat split. Qed.

Lemma ceil_refuted : exists m r, valid F32 m = true /\ is_ceil 0 (qval 16 m) (-1) /\ fx_ceil F32 m = Ok r /\
  ~ (qval 16 r == inject_Z (-1))%Q.
Proof. exists (-98304), (-1). vm_compute. repeat split; congruence. Qed.

Lemma modf_refuted : exists m, valid F32 m = true /\ (qval 16 m == inject_Z (-32768))%Q /\ fx_modf F32 m = UB.
Proof. exists (-2147483648). vm_compute. repeat split. Qed.

(** fmod(-2^-16, 2+2^-16) is negative *)
Lemma fmod_refuted : exists a b r, valid F32 a = true /\ valid F32 b = true /\ (0 < qval 16 b)%Q /\
  fx_fmod F32 a b = Ok r /\ (qval 16 r < 0)%Q.
Proof. exists (-1), 131073, (-1). vm_compute. repeat split; congruence. Qed.

(** sqrt(4) = 0.125 with 20 fraction bits *)
Lemma sqrt_width_refuted : exists m r, wf I32_20 = true /\ valid I32_20 m = true /\ (qval 20 m == 4)%Q /\
  fx_sqrt I32_20 m = Ok r /\ (qval 20 r == 1 # 8)%Q.
Proof. exists 4194304, 131072. vm_compute. repeat split; congruence. Qed.

Lemma sqrt64_refuted : exists m, valid F64 m = true /\ (0 < qval 32 m)%Q /\ fx_sqrt F64 m = UB.
Proof. exists 8432131806905434112. vm_compute. repeat split; congruence. Qed.

Lemma sqrt32_neg_refuted : exists m r, valid F32 m = true /\ (qval 16 m < 0)%Q /\ fx_sqrt F32 m = Ok r /\ (383 < qval 16 r)%Q.
Proof. exists (-1), 25165823. vm_compute. repeat split; congruence. Qed.

(** cbrt(-2) divides by zero; cbrt(94) overflows *)
Lemma cbrt_refuted : exists m, valid F32 m = true /\ (qval 16 m == inject_Z (-2))%Q /\ fx_cbrt F32 m = UB.
Proof. exists (-131072). vm_compute. repeat split. Qed.
Lemma cbrt_refuted' : exists m, valid F32 m = true /\ (qval 16 m == inject_Z 94)%Q /\ fx_cbrt F32 m = UB.
Proof. exists 6160384. vm_compute. repeat split. Qed.

(** the smallest value squared is zero, so its power -2 divides by zero; 256^-2 too *)
Lemma pow_neg_refuted : exists b, valid F32 b = true /\ b <> 0 /\ fx_pow_int F32 int32 b (-2) = UB.
Proof. exists 1. vm_compute. repeat split; congruence. Qed.
Lemma pow_neg_refuted' : exists b, valid F32 b = true /\ (qval 16 b == 256)%Q /\ fx_pow_int F32 int32 b (-2) = UB.
Proof. exists 16777216. vm_compute. repeat split; congruence. Qed.

Lemma exp_min_refuted : exists m, valid F32 m = true /\ fx_exp F32 m = UB.
Proof. exists (-2147483648). vm_compute. repeat split. Qed.

(** pow(-2, 0) and pow(-2, 0.5) end the program: log throws inside a noexcept function *)
Lemma fxpow_neg_refuted : exists b, valid F32 b = true /\ (qval 16 b == -2 # 1)%Q /\
  fx_pow F32 b 0 = Throw terminated /\ fx_pow F32 b 32768 = Throw terminated.
Proof. exists (-131072). vm_compute. repeat split. Qed.

(** asin(MIN), |MIN| > 1, is undefined instead of throwing *)
Lemma asin_min_refuted : exists m, valid F32 m = true /\ (1 < Qabs (qval 16 m))%Q /\ fx_asin F32 m = UB.
Proof. exists (-2147483648). vm_compute. repeat split. Qed.

(** sin(MIN) is undefined *)
Lemma sin_min_refuted : exists m, valid F32 m = true /\ fx_sin F32 m = UB.
Proof. exists (-2147483648). vm_compute. repeat split. Qed.

(** atan(7) = 29818.6..., and atan(6.91581...) is undefined *)
Lemma atan_refuted : exists m r, valid F32 m = true /\ (qval 16 m == 7)%Q /\ fx_atan F32 m = Ok r /\ (29818 < qval 16 r)%Q.
Proof. exists 458752, 1954191054. vm_compute. repeat split; congruence. Qed.
Lemma atan_ub_refuted : exists m, valid F32 m = true /\ (qval 16 m < 7)%Q /\ fx_atan F32 m = UB.
Proof. exists 453235. vm_compute. repeat split; congruence. Qed.
