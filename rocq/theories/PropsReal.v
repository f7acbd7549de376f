(** Property theorems C40-C43, C45-C53: accuracy of the elementary functions.  Statements only; proofs are in LogThms.v, SinThms.v,
    RealThms.v, RefuteReal.v.  [rval f m] is the real number denoted by the raw integer [m] with [f] fraction bits. *)
From Coq Require Import ZArith Bool QArith Qabs Reals Lra.
From Verif Require Import Base Fixed Math Spec SpecReal StdProofs LogProofs LogThms SinThms AtanProofs RealThms RefuteMath RefuteReal.
Open Scope R_scope.

(** C40.  [std c]: c is F32 or F64. *)
Theorem C40_log2 : forall c m, std c -> valid c m = true -> 0 < rval (cf c) m ->
  exists r, fx_log2 c m = Ok r /\ valid c r = true /\
    rval (cf c) r <= log2r (rval (cf c) m) < rval (cf c) r + 4 * ulp (cf c).
Proof. exact log2_thm. Qed.
Theorem C40_log2_domain : forall c m, std c -> valid c m = true ->
  (fx_log2 c m = Throw domain_error <-> rval (cf c) m <= 0).
Proof. exact log2_domain_thm. Qed.
Example C40_case : std F32 /\ valid F32 196608 = true /\ 0 < rval 16 196608 /\ fx_log2 F32 196608 = Ok 103872%Z /\
  fx_log2 F32 0 = Throw domain_error.
Proof.
  split; [left; reflexivity|]. split; [reflexivity|].
  split; [unfold rval; change (IZR (2 ^ 16)) with 65536; lra|split; vm_compute; reflexivity].
Qed.
Print Assumptions C40_log2.

(** C41 *)
Theorem C41_log32 : forall m, valid F32 m = true -> 0 < rval 16 m ->
  exists r, fx_log F32 m = Ok r /\ valid F32 r = true /\ Rabs (rval 16 r - ln (rval 16 m)) <= 8 * ulp 16.
Proof. exact log32_thm. Qed.
Theorem C41_log64 : forall m, valid F64 m = true -> 0 < rval 32 m ->
  exists r, fx_log F64 m = Ok r /\ valid F64 r = true /\ Rabs (rval 32 r - ln (rval 32 m)) <= 15 * ulp 32.
Proof. exact log64_thm. Qed.
Theorem C41_log10_32 : forall m, valid F32 m = true -> 0 < rval 16 m ->
  exists r, fx_log10 F32 m = Ok r /\ valid F32 r = true /\ Rabs (rval 16 r - log10r (rval 16 m)) <= 4 * ulp 16.
Proof. exact log10_32_thm. Qed.
Theorem C41_log10_64 : forall m, valid F64 m = true -> 0 < rval 32 m ->
  exists r, fx_log10 F64 m = Ok r /\ valid F64 r = true /\ Rabs (rval 32 r - log10r (rval 32 m)) <= 4 * ulp 32.
Proof. exact log10_64_thm. Qed.
Theorem C41_log_domain : forall c m, std c -> valid c m = true ->
  (fx_log c m = Throw domain_error <-> rval (cf c) m <= 0) /\ (fx_log10 c m = Throw domain_error <-> rval (cf c) m <= 0).
Proof. exact log_domain_thm. Qed.
Example C41_case : valid F32 6553600 = true /\ fx_log10 F32 6553600 = Ok 131072%Z /\ fx_log F32 6553600 = Ok 301805%Z.
Proof. vm_compute. repeat split. Qed.
Print Assumptions C41_log64.

(** C42 *)
Theorem C42_exp_refuted :
  exists m r, valid F32 m = true /\ rval 16 m = / 2 /\ fx_exp F32 m = Ok r /\ rval 16 r < 1.4 /\ 1.64 < exp (rval 16 m).
Proof. exact exp_acc_refuted. Qed.

(** C43 *)
Theorem C43_exp_min_refuted : exists m, valid F32 m = true /\ fx_exp F32 m = UB.
Proof. exact exp_min_refuted. Qed.

(** C45: undefined at the least value (fx_abs overflows); accurate everywhere else.  In fixed64 the error 3.1e-4 comes from the
    sign error near zero (C46): outside (-1.5e-4, 0) it is 3.71e-6. *)
Theorem C45_sin_min_refuted : exists m, valid F32 m = true /\ fx_sin F32 m = UB.
Proof. exact sin_min_refuted. Qed.
Theorem C45_sin32 : forall m, valid F32 m = true -> m <> MIN32 ->
  exists r, fx_sin F32 m = Ok r /\ valid F32 r = true /\
  Rabs (rval 16 r - sin (rval 16 m)) <= (16 + 0.14 * Rabs (rval 16 m)) * ulp 16.
Proof. exact sin32_thm. Qed.
Theorem C45_sin64 : forall m, valid F64 m = true -> m <> MIN64 ->
  exists r, fx_sin F64 m = Ok r /\ valid F64 r = true /\
  Rabs (rval 32 r - sin (rval 32 m)) <= 3.1e-4 + 0.0074 * Rabs (rval 32 m) * ulp 32 /\
  ((0 <= m \/ 644245 <= Z.abs m)%Z -> Rabs (rval 32 r - sin (rval 32 m)) <= 3.71e-6 + 0.0074 * Rabs (rval 32 m) * ulp 32).
Proof. exact sin64_thm. Qed.
Example C45_case : valid F32 65536 = true /\ 65536%Z <> MIN32 /\ fx_sin F32 65536 = Ok 55147%Z.
Proof. vm_compute. repeat split. discriminate. Qed.
Print Assumptions C45_sin64.

(** C46: even instead of odd on the tiny arguments; exactly odd on all the others *)
Theorem C46_sin_odd_refuted : exists m, valid F32 m = true /\ m <> 0%Z /\ fx_sin F32 m = Ok m /\ fx_sin F32 (- m) = Ok m.
Proof. exact sin_odd_refuted. Qed.
Theorem C46_sin_odd64_refuted : exists m, valid F64 m = true /\ 9.3e-5 < rval 32 m /\ fx_sin F64 m = Ok m /\ fx_sin F64 (- m) = Ok m.
Proof. exact sin_odd64_refuted. Qed.
Theorem C46_sin_odd32 : forall m, valid F32 m = true -> m <> MIN32 -> (9 <= Z.abs m)%Z ->
  exists r, fx_sin F32 m = Ok r /\ fx_sin F32 (- m) = Ok (- r)%Z.
Proof. exact sin32_odd. Qed.
Theorem C46_sin_odd64 : forall m, valid F64 m = true -> m <> MIN64 -> (644245 <= Z.abs m)%Z ->
  exists r, fx_sin F64 m = Ok r /\ fx_sin F64 (- m) = Ok (- r)%Z.
Proof. exact sin64_odd. Qed.
Theorem C46_sin_even_tiny32 : forall m, (2 <= m < 9)%Z -> fx_sin F32 m = Ok m /\ fx_sin F32 (- m) = Ok m.
Proof. exact sin32_even_tiny. Qed.
Theorem C46_sin_even_tiny64 : forall m, (2 <= m < 644245)%Z -> fx_sin F64 m = Ok m /\ fx_sin F64 (- m) = Ok m.
Proof. exact sin64_even_tiny. Qed.
Example C46_case : valid F32 65536 = true /\ 65536%Z <> MIN32 /\ (9 <= Z.abs 65536)%Z /\ fx_sin F32 (-65536) = Ok (-55147)%Z.
Proof. vm_compute. repeat split; discriminate. Qed.

(** C47 *)
Theorem C47_sin_min_refuted : exists m, valid F64 m = true /\ fx_sin F64 m = UB.
Proof. exact sin_min64_refuted. Qed.
Theorem C47_range32 : forall m, valid F32 m = true ->
  (m <> MIN32 -> exists s, fx_sin F32 m = Ok s /\ Rabs (rval 16 s) <= 1 + 8 * ulp 16) /\
  (exists cs, fx_cos F32 m = Ok cs /\ Rabs (rval 16 cs) <= 1 + 8 * ulp 16).
Proof. exact range32_thm. Qed.
Theorem C47_range64 : forall m, valid F64 m = true ->
  (m <> MIN64 -> exists s, fx_sin F64 m = Ok s /\ Rabs (rval 32 s) <= 1 + 3.71e-6) /\
  (exists cs, fx_cos F64 m = Ok cs /\ Rabs (rval 32 cs) <= 1 + 3.71e-6).
Proof. exact range64_thm. Qed.
Example C47_case : fx_sin F32 102943 = Ok 65536%Z /\ fx_cos F32 (-2147483648) = Ok 20362%Z.
Proof. split; vm_compute; reflexivity. Qed.

(** C48 *)
Theorem C48_cos32 : forall m, valid F32 m = true ->
  exists r, fx_cos F32 m = Ok r /\ valid F32 r = true /\
  Rabs (rval 16 r - cos (rval 16 m)) <= (18 + 0.14 * Rabs (rval 16 m)) * ulp 16.
Proof. exact cos32_thm. Qed.
Theorem C48_cos64 : forall m, valid F64 m = true ->
  exists r, fx_cos F64 m = Ok r /\ valid F64 r = true /\
  Rabs (rval 32 r - cos (rval 32 m)) <= 3.2e-4 + 0.0074 * Rabs (rval 32 m) * ulp 32.
Proof. exact cos64_thm. Qed.
Example C48_case : valid F32 65536 = true /\ fx_cos F32 65536 = Ok 35410%Z.
Proof. split; vm_compute; reflexivity. Qed.

(** C49 *)
Theorem C49_tan_wrap_refuted :
  exists m s cs r, valid F32 m = true /\ fx_sin F32 m = Ok s /\ fx_cos F32 m = Ok cs /\ (1 < Z.abs cs)%Z /\
  (qval 16 s / qval 16 cs < 0)%Q /\ fx_tan F32 m = Ok r /\ (0 < qval 16 r)%Q.
Proof. exact tan_wrap_refuted. Qed.
Theorem C49_tan_min_refuted : exists m, valid F32 m = true /\ fx_tan F32 m = UB.
Proof. exact tan_min_refuted. Qed.
Theorem C49_tan32 : forall m, valid F32 m = true -> m <> MIN32 ->
  exists s cs, fx_sin F32 m = Ok s /\ fx_cos F32 m = Ok cs /\
  (fx_tan F32 m = Throw domain_error <-> (Z.abs cs <= 1)%Z) /\
  (forall q, (1 < Z.abs cs)%Z -> is_trunc 16 (qval 16 s / qval 16 cs) q -> fits 32 true q -> fx_tan F32 m = Ok q) /\
  ((2 < Z.abs cs)%Z -> exists q, fx_tan F32 m = Ok q /\ is_trunc 16 (qval 16 s / qval 16 cs) q).
Proof. exact tan32_thm. Qed.
Theorem C49_tan64 : forall m, valid F64 m = true -> m <> MIN64 ->
  exists s cs, fx_sin F64 m = Ok s /\ fx_cos F64 m = Ok cs /\
  (fx_tan F64 m = Throw domain_error <-> (Z.abs cs <= 1)%Z) /\
  (forall q, (1 < Z.abs cs)%Z -> is_trunc 32 (qval 32 s / qval 32 cs) q -> fits 64 true q -> fx_tan F64 m = Ok q) /\
  ((2 < Z.abs cs)%Z -> exists q, fx_tan F64 m = Ok q /\ is_trunc 32 (qval 32 s / qval 32 cs) q).
Proof. exact tan64_thm. Qed.
Example C49_case : fx_tan F32 51472 = Ok 65536%Z /\ fx_tan F32 102943 = Throw domain_error.
Proof. split; vm_compute; reflexivity. Qed.

(** C50 *)
Theorem C50_atan32 : forall m, Rabs (rval 16 m) <= 1 ->
  exists r, fx_atan F32 m = Ok r /\ valid F32 r = true /\ Rabs (rval 16 r - atan (rval 16 m)) <= 4e-4.
Proof. exact atan32_thm. Qed.
Theorem C50_atan64 : forall m, Rabs (rval 32 m) <= 1 ->
  exists r, fx_atan F64 m = Ok r /\ valid F64 r = true /\ Rabs (rval 32 r - atan (rval 32 m)) <= 2.71e-4.
Proof. exact atan64_thm. Qed.
Theorem C50_atan_odd : forall c m, std c -> Rabs (rval (cf c) m) <= 1 ->
  exists r, fx_atan c m = Ok r /\ fx_atan c (- m) = Ok (- r)%Z.
Proof. exact atan_odd. Qed.
Example C50_case : Rabs (rval 16 65536) <= 1 /\ fx_atan F32 65536 = Ok 51458%Z.
Proof.
  split; [|vm_compute; reflexivity]. unfold rval. change (IZR (2 ^ 16)) with 65536. rewrite Rabs_pos_eq; lra.
Qed.
Print Assumptions C50_atan32.

(** C51 *)
Theorem C51_atan_refuted : exists m r, valid F32 m = true /\ (qval 16 m == 7)%Q /\ fx_atan F32 m = Ok r /\ (29818 < qval 16 r)%Q.
Proof. exact atan_refuted. Qed.
Theorem C51_atan_near_one_refuted :
  exists m r, valid F32 m = true /\ rval 16 m <= 1.05 /\ fx_atan F32 m = Ok r /\ 0.001 < Rabs (rval 16 r - atan (rval 16 m)).
Proof. exact atan_acc_refuted. Qed.
Theorem C51_atan_undefined_refuted : exists m, valid F32 m = true /\ (qval 16 m < 7)%Q /\ fx_atan F32 m = UB.
Proof. exact atan_ub_refuted. Qed.

(** C52: |MIN| overflows before the domain test; otherwise both throw exactly outside [-1,1] *)
Theorem C52_asin_min_refuted : exists m, valid F32 m = true /\ (1 < Qabs (qval 16 m))%Q /\ fx_asin F32 m = UB.
Proof. exact asin_min_refuted. Qed.
Theorem C52_asin_domain : forall c m, std c -> valid c m = true -> valid c (- m) = true -> 1 < Rabs (rval (cf c) m) ->
  fx_asin c m = Throw domain_error /\ fx_acos c m = Throw domain_error.
Proof. exact asin_domain_thm. Qed.
Theorem C52_asin_defined32 : forall m, Rabs (rval 16 m) <= 1 ->
  (exists r, fx_asin F32 m = Ok r /\ valid F32 r = true) /\ (exists r, fx_acos F32 m = Ok r /\ valid F32 r = true).
Proof. exact asin32_def_thm. Qed.
(** [P] is the library's pi; the named values are P/2, -P/2, 0, P, P/2, halves rounded toward zero *)
Theorem C52_constants : forall c, std c -> forall P, pi_v c = Ok P ->
  forall H N, is_trunc 0 (inject_Z P / 2) H -> is_trunc 0 (inject_Z (- P) / 2) N ->
  fx_asin c (2 ^ cf c) = Ok H /\ fx_asin c (- 2 ^ cf c) = Ok N /\ fx_acos c (2 ^ cf c) = Ok 0%Z /\
  fx_acos c (- 2 ^ cf c) = Ok P /\ fx_acos c 0 = Ok H.
Proof. exact asin_consts. Qed.
Example C52_case : valid F32 131072 = true /\ valid F32 (- 131072) = true /\ fx_asin F32 131072 = Throw domain_error /\
  fx_asin F32 32768 = Ok 34309%Z /\ fx_acos F32 (-65536) = Ok 205887%Z.
Proof. vm_compute. repeat split. Qed.
Print Assumptions C52_asin_defined32.

(** C53 *)
Theorem C53_asin_refuted :
  exists m r, valid F32 m = true /\ 0 < rval 16 m <= 0.7215 /\ fx_asin F32 m = Ok r /\ 0.001 < Rabs (rval 16 r - asin (rval 16 m)).
Proof. exact asin_acc_refuted. Qed.
Theorem C53_asin_near_one_refuted :
  exists m r, valid F32 m = true /\ 0 < rval 16 m < 1 /\ fx_asin F32 m = Ok r /\ rval 16 r < -32192.
Proof. exact asin_wild_refuted. Qed.
Print Assumptions C53_asin_refuted.
Print Assumptions C40_log2_domain.
Print Assumptions C41_log32.
Print Assumptions C41_log10_32.
Print Assumptions C41_log10_64.
Print Assumptions C41_log_domain.
Print Assumptions C42_exp_refuted.
Print Assumptions C43_exp_min_refuted.
Print Assumptions C45_sin_min_refuted.
Print Assumptions C45_sin32.
Print Assumptions C46_sin_odd_refuted.
Print Assumptions C46_sin_odd64_refuted.
Print Assumptions C46_sin_odd32.
Print Assumptions C46_sin_odd64.
Print Assumptions C46_sin_even_tiny32.
Print Assumptions C46_sin_even_tiny64.
Print Assumptions C47_sin_min_refuted.
Print Assumptions C47_range32.
Print Assumptions C47_range64.
Print Assumptions C48_cos32.
Print Assumptions C48_cos64.
Print Assumptions C49_tan_wrap_refuted.
Print Assumptions C49_tan_min_refuted.
Print Assumptions C49_tan32.
Print Assumptions C49_tan64.
Print Assumptions C50_atan64.
Print Assumptions C50_atan_odd.
Print Assumptions C51_atan_refuted.
Print Assumptions C51_atan_near_one_refuted.
Print Assumptions C51_atan_undefined_refuted.
Print Assumptions C52_asin_min_refuted.
Print Assumptions C52_asin_domain.
Print Assumptions C52_constants.
Print Assumptions C53_asin_near_one_refuted.
