(** Property theorems C01-C08: construction and conversion.  Statements only; proofs are in
    ConvProofs.v / RefuteArith.v. *)
From Coq Require Import ZArith Bool QArith Qabs.
From Verif Require Import Base Fixed Spec ConvProofs RefuteArith.
Open Scope Z_scope.

(** C01 *)
Theorem C01_int_ctor_exact : forall c n, wf c = true ->
  representable (bits (ct c)) (sgn (ct c)) (cf c) (inject_Z n) ->
  exists m, fx_of_int c n = Ok m /\ valid c m = true /\ (qval (cf c) m == inject_Z n)%Q.
Proof. exact int_ctor_exact. Qed.
Theorem C01_int_ctor_wraps : forall c n, wf c = true ->
  exists m, fx_of_int c n = Ok m /\ valid c m = true /\ cong (bits (ct c)) m (n * 2 ^ cf c).
Proof. exact int_ctor_wraps. Qed.
Example C01_case : representable 32 true 16 (inject_Z (-32768)) /\ fx_of_int F32 (-32768) = Ok (-2147483648).
Proof. split; [exists (-2147483648); split; [vm_compute; split; congruence|reflexivity] | reflexivity]. Qed.

(** C02 *)
Theorem C02_int_cast_floor : forall c t m n, wf c = true -> ity_ok t = true -> valid c m = true ->
  is_floor 0 (qval (cf c) m) n -> fits (bits t) (sgn t) n -> fx_to_int c t m = Ok n.
Proof. exact int_cast_floor. Qed.
Theorem C02_int_roundtrip : forall c t n, wf c = true -> ity_ok t = true -> fits (bits t) (sgn t) n ->
  representable (bits (ct c)) (sgn (ct c)) (cf c) (inject_Z n) ->
  (let* m := fx_of_int c n in fx_to_int c t m) = Ok n.
Proof. exact int_roundtrip. Qed.
Example C02_case : is_floor 0 (qval 16 (-98304)) (-2) /\ fits 8 true (-2) /\ fx_to_int F32 int8 (-98304) = Ok (-2).
Proof. repeat split; vm_compute; congruence. Qed.

(** C03: the claim is false of the code ... *)
Theorem C03_float_cast_refuted :
  exists m q, wf F32 = true /\ valid F32 m = true /\ fx_to_float F32 m = Ok q /\
    (1 # 2 <= Qabs (inject_Z q - qval (cf F32) m))%Q.
Proof. exact float_cast_refuted. Qed.
(** ... what holds: the cast truncates toward zero, hence is exact only for integers. *)
Theorem C03_float_cast_truncates : forall c m n, wf c = true -> valid c m = true ->
  is_trunc 0 (qval (cf c) m) n -> fx_to_float c m = Ok n.
Proof. exact float_cast_trunc. Qed.
Theorem C03_float_cast_exact_iff_integer : forall c m n, wf c = true -> valid c m = true ->
  fx_to_float c m = Ok n -> ((inject_Z n == qval (cf c) m)%Q <-> is_int (qval (cf c) m)).
Proof. exact float_cast_exact_iff. Qed.
Example C03_case : is_trunc 0 (qval 16 7503872) 114 /\ fx_to_float F32 7503872 = Ok 114.
Proof. split; [|reflexivity]. split; intros; split; vm_compute in *; congruence. Qed.

(** C04 *)
Theorem C04_float_ctor_trunc : forall c n k m, wf c = true -> cr c = false -> 0 <= k ->
  is_trunc (cf c) (qval k n) m ->
  fx_of_float c n k = if in_range (ct c) m then Ok m else UB.
Proof. exact float_ctor_trunc. Qed.
Theorem C04_float_ctor_exact : forall c n k m, wf c = true -> cr c = false -> 0 <= k -> valid c m = true ->
  (qval (cf c) m == qval k n)%Q -> fx_of_float c n k = Ok m.
Proof. exact float_ctor_exact. Qed.
Example C04_case : is_trunc 16 (qval 20 (-13)) 0 /\ fx_of_float F32 (-13) 20 = Ok 0 /\ fx_of_float F32 (-3) 1 = Ok (-98304).
Proof. repeat split; intros; vm_compute in *; congruence. Qed.

(** C05: false for non-negative arguments (they are halved) ... *)
Theorem C05_float_ctor_rounding_refuted :
  exists n k m, wf F32r = true /\ 0 <= k /\ valid F32r (n * 2 ^ 16) = true /\
    fx_of_float F32r n k = Ok m /\ ~ is_nearest (cf F32r) (qval k n) m /\
    (qval (cf F32r) m == (1 # 2) * qval k n)%Q.
Proof. exact float_ctor_round_refuted. Qed.
(** ... for negative ones see PropsFloat.v. *)
Example C05_case : fx_of_float F32r 1 0 = Ok 32768.
Proof. reflexivity. Qed.

(** C06: the documented fixed32 -> fixed64 conversion of 1.0 is undefined ... *)
Theorem C06_widening_refuted :
  exists m m', wf F32 = true /\ wf F64 = true /\ valid F32 m = true /\
    valid F64 m' = true /\ (qval (cf F64) m' == qval (cf F32) m)%Q /\ fx_of_fixed F64 F32 m = UB.
Proof. exact widen_refuted. Qed.
(** ... exact whenever the scaled value still fits the (promoted) SOURCE type ... *)
Theorem C06_widening_exact : forall dst src m, wf dst = true -> wf src = true -> cf src <= cf dst ->
  cf dst - cf src < bits (promote (ct src)) - 1 -> valid src m = true ->
  fits (bits (promote (ct src))) (sgn (promote (ct src))) (m * 2 ^ (cf dst - cf src)) ->
  representable (bits (ct dst)) (sgn (ct dst)) (cf dst) (qval (cf src) m) ->
  exists m', fx_of_fixed dst src m = Ok m' /\ valid dst m' = true /\ (qval (cf dst) m' == qval (cf src) m)%Q.
Proof. exact widen_exact. Qed.
(** ... and undefined exactly otherwise (signed sources). *)
Theorem C06_widening_ub_iff : forall dst src m, wf dst = true -> wf src = true -> cf src <= cf dst ->
  cf dst - cf src < bits (promote (ct src)) - 1 -> valid src m = true -> sgn (promote (ct src)) = true ->
  (fx_of_fixed dst src m = UB <->
   ~ fits (bits (promote (ct src))) (sgn (promote (ct src))) (m * 2 ^ (cf dst - cf src))).
Proof. exact widen_ub. Qed.
Example C06_case : fx_of_fixed F64 F32 (-32768) = Ok (-2147483648) /\
  fits 32 true (-32768 * 2 ^ 16) /\ representable 64 true 32 (qval 16 (-32768)).
Proof.
  split; [reflexivity|]. split; [vm_compute; split; congruence|].
  exists (-2147483648). split; [vm_compute; split; congruence|reflexivity].
Qed.

(** C07 *)
Theorem C07_narrowing_truncates : forall dst src m r, wf dst = true -> wf src = true -> cf dst < cf src ->
  valid src m = true -> cr dst = false -> is_trunc (cf dst) (qval (cf src) m) r ->
  exists m', fx_of_fixed dst src m = Ok m' /\ valid dst m' = true /\ cong (bits (ct dst)) m' r
             /\ (fits (bits (ct dst)) (sgn (ct dst)) r -> m' = r).
Proof. exact narrow_trunc. Qed.
Theorem C07_narrowing_rounds : forall dst src m r, wf dst = true -> wf src = true -> cf dst < cf src ->
  valid src m = true -> cr dst = true -> is_nearest_away (cf dst) (qval (cf src) m) r ->
  exists m', fx_of_fixed dst src m = Ok m' /\ valid dst m' = true /\ cong (bits (ct dst)) m' r
             /\ (fits (bits (ct dst)) (sgn (ct dst)) r -> m' = r).
Proof. exact narrow_round. Qed.
Example C07_case : is_trunc 16 (qval 32 (-98305)) (-1) /\ fx_of_fixed F32 F64 (-98305) = Ok (-1) /\
  is_nearest_away 16 (qval 32 (-98305)) (-2) /\ fx_of_fixed F32r F64 (-98305) = Ok (-2).
Proof. repeat split; intros; vm_compute in *; congruence. Qed.

(** C08 *)
Theorem C08_narrow_undoes_widen : forall dst src m m', wf dst = true -> wf src = true -> cf src <= cf dst ->
  valid src m = true -> valid dst m' = true -> (qval (cf dst) m' == qval (cf src) m)%Q ->
  fx_of_fixed src dst m' = Ok m.
Proof. exact narrow_widen. Qed.
Example C08_case : (qval 32 (-2147483648) == qval 16 (-32768))%Q /\ fx_of_fixed F32 F64 (-2147483648) = Ok (-32768)
  /\ fx_of_fixed F32r F64 (-2147483648) = Ok (-32768).
Proof. repeat split. Qed.

Print Assumptions C01_int_ctor_exact.
Print Assumptions C01_int_ctor_wraps.
Print Assumptions C02_int_cast_floor.
Print Assumptions C02_int_roundtrip.
Print Assumptions C03_float_cast_refuted.
Print Assumptions C03_float_cast_truncates.
Print Assumptions C03_float_cast_exact_iff_integer.
Print Assumptions C04_float_ctor_trunc.
Print Assumptions C04_float_ctor_exact.
Print Assumptions C05_float_ctor_rounding_refuted.
Print Assumptions C06_widening_refuted.
Print Assumptions C06_widening_exact.
Print Assumptions C06_widening_ub_iff.
Print Assumptions C07_narrowing_truncates.
Print Assumptions C07_narrowing_rounds.
Print Assumptions C08_narrow_undoes_widen.
