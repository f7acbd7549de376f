(** Property theorems C120-C123: the Pythagorean identity, tan, structure of the logarithms.  Statements only; proofs are in
    DerivedReal.v, LogMono.v and LogThms2.v. *)
From Coq Require Import ZArith QArith Reals Lra.
From Interval Require Import Tactic.
From Verif Require Import Base Fixed Math Spec SpecReal StdProofs RealThms DerivedReal LogThms2.
Open Scope R_scope.

(** C120: sin(x)*sin(x) + cos(x)*cos(x), computed with the operators *)
Theorem C120_pythagoras32 : forall m, valid F32 m = true -> m <> MIN32 ->
  exists s cs a b r, fx_sin F32 m = Ok s /\ fx_cos F32 m = Ok cs /\ fx_mul F32 s s = Ok a /\ fx_mul F32 cs cs = Ok b /\
  fx_add F32 a b = Ok r /\ Rabs (rval 16 r - 1) <= (56 + 0.42 * Rabs (rval 16 m)) * ulp 16.
Proof. exact pyth32_thm. Qed.
Theorem C120_pythagoras64 : forall m, valid F64 m = true -> m <> MIN64 ->
  exists s cs a b r, fx_sin F64 m = Ok s /\ fx_cos F64 m = Ok cs /\ fx_mul F64 s s = Ok a /\ fx_mul F64 cs cs = Ok b /\
  fx_add F64 a b = Ok r /\ Rabs (rval 32 r - 1) <= 9.1e-4 + 0.022 * Rabs (rval 32 m) * ulp 32.
Proof. exact pyth64_thm. Qed.
Example C120_case : valid F32 65536 = true /\ 65536%Z <> MIN32 /\
  fx_sin F32 65536 = Ok 55147%Z /\ fx_cos F32 65536 = Ok 35410%Z /\ fx_mul F32 55147 55147 = Ok 46404%Z /\
  fx_mul F32 35410 35410 = Ok 19132%Z /\ fx_add F32 46404 19132 = Ok 65536%Z.
Proof. vm_compute. repeat split. discriminate. Qed.

(** C121 *)
Theorem C121_tan32 : forall m, valid F32 m = true -> m <> MIN32 ->
  (144 + 1.12 * Rabs (rval 16 m)) * ulp 16 <= Rabs (cos (rval 16 m)) ->
  exists r, fx_tan F32 m = Ok r /\ valid F32 r = true /\
  Rabs (rval 16 r - tan (rval 16 m)) <= ((30 + 0.23 * Rabs (rval 16 m)) / (cos (rval 16 m) * cos (rval 16 m)) + 1) * ulp 16.
Proof. exact tan32_acc. Qed.
Theorem C121_tan64 : forall m, valid F64 m = true -> m <> MIN64 -> (0 <= m \/ 644245 <= Z.abs m)%Z ->
  1.6e-4 + 0.06 * Rabs (rval 32 m) * ulp 32 <= Rabs (cos (rval 32 m)) ->
  exists r, fx_tan F64 m = Ok r /\ valid F64 r = true /\
  Rabs (rval 32 r - tan (rval 32 m)) <= (6.1e-6 + 0.0121 * Rabs (rval 32 m) * ulp 32) / (cos (rval 32 m) * cos (rval 32 m)).
Proof. exact tan64_acc. Qed.
Example C121_case : valid F32 65536 = true /\ 65536%Z <> MIN32 /\ (144 + 1.12 * Rabs (rval 16 65536)) * ulp 16 <= Rabs (cos (rval 16 65536)) /\
  fx_tan F32 65536 = Ok 102064%Z /\ fx_tan F64 4294967296 = Ok 6689015443%Z.
Proof.
  split; [reflexivity|]. split; [discriminate|]. split; [|split; vm_compute; reflexivity].
  unfold rval, ulp. change (IZR (2 ^ 16)) with 65536. interval.
Qed.

(** C122.  [std c]: c is F32 or F64. *)
Theorem C122_log2_pow2 : forall c m k, std c -> valid c m = true -> (qval (cf c) m == 2 ^ k)%Q ->
  exists r, fx_log2 c m = Ok r /\ (qval (cf c) r == inject_Z k)%Q.
Proof. exact log2_pow2_thm. Qed.
Theorem C122_log2_double : forall c m, std c -> valid c m = true -> (0 < m)%Z -> valid c (2 * m) = true ->
  exists r s, fx_log2 c m = Ok r /\ fx_log2 c (2 * m) = Ok s /\ (qval (cf c) s == qval (cf c) r + 1)%Q.
Proof. exact log2_double_thm. Qed.
Example C122_case : std F32 /\ valid F32 1 = true /\ (qval 16 1 == 2 ^ (-16))%Q /\ fx_log2 F32 1 = Ok (-1048576)%Z /\
  fx_log2 F32 196608 = Ok 103872%Z /\ fx_log2 F32 (2 * 196608) = Ok 169408%Z.
Proof. split; [left; reflexivity|]. vm_compute. repeat split. Qed.

(** C123 *)
Theorem C123_log_monotone : forall c m n, std c -> valid c m = true -> valid c n = true -> (0 < m)%Z -> (m <= n)%Z ->
  (forall r s, fx_log2 c m = Ok r -> fx_log2 c n = Ok s -> (r <= s)%Z) /\
  (forall r s, fx_log c m = Ok r -> fx_log c n = Ok s -> (r <= s)%Z) /\
  (forall r s, fx_log10 c m = Ok r -> fx_log10 c n = Ok s -> (r <= s)%Z).
Proof. exact log_mono_thm. Qed.
Example C123_case : fx_log F32 196608 = Ok 71998%Z /\ fx_log F32 196609 = Ok 71998%Z /\ fx_log F32 262144 = Ok 90852%Z.
Proof. vm_compute. repeat split. Qed.
Print Assumptions C120_pythagoras32.
Print Assumptions C120_pythagoras64.
Print Assumptions C121_tan32.
Print Assumptions C121_tan64.
Print Assumptions C122_log2_pow2.
Print Assumptions C122_log2_double.
Print Assumptions C123_log_monotone.
