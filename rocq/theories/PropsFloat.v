(** Properties of the conversions to and from floating-point types, with the rounding of the type and its special values. *)
From Coq Require Import ZArith Bool QArith Qabs Lia.
From Verif Require Import Base Fixed Float Spec SpecFp FloatProofs FloatThms FloatTies RefuteArith.
Open Scope Z_scope.

(** C04 again, with the special values in the model and for a type of any precision [p] *)
Theorem C04_fp_ctor_trunc : forall p c n k m, wf c = true -> cr c = false -> 0 <= k -> is_trunc (cf c) (qval k n) m ->
  fx_of_fval p c (Fin n k) = if in_range (ct c) m then Ok m else UB.
Proof. exact fval_trunc. Qed.
Print Assumptions C04_fp_ctor_trunc.
Example C04_fp_case : is_trunc 16 (qval 20 (-13)) 0 /\ fx_of_fval 53 F32 (Fin (-13) 20) = Ok 0 /\ fx_of_fval 24 F32 (Fin (-3) 1) = Ok (-98304).
Proof. repeat split; intros; vm_compute in *; congruence. Qed.

(** C05 again: with the rounding of the subtraction [val * 2^f - 0.5] the negative branch is not right either ... *)
Theorem C05_fp_negative_refuted :
  (exists n k m, 0 <= k /\ n < 0 /\ fp_rep 53 (qval k n) /\ fx_of_fval 53 F32r (Fin n k) = Ok m /\ ~ is_nearest (cf F32r) (qval k n) m) /\
  (exists n k m, 0 <= k /\ n < 0 /\ fp_rep 24 (qval k n) /\ fx_of_fval 24 F32r (Fin n k) = Ok m /\ ~ is_nearest (cf F32r) (qval k n) m).
Proof. exact float_rounding_refuted. Qed.
(** ... but it is, for all arguments below 2^(p-1) ulp in magnitude except the one just below half an ulp.  Non-negative
    arguments are halved (see below); the others are in PropsFill.v. *)
Theorem C05_fp_negative : forall p c n k m, wf c = true -> cr c = true -> 2 <= p -> 0 <= k -> n < 0 -> fp_rep p (qval k n) ->
  (- qval k (n * 2 ^ cf c) + (1 # 2) < inject_Z (2 ^ (p - 1)))%Q ->
  ~ (qval k (n * 2 ^ cf c) == - ((1 # 2) - qval (p + 1) 1))%Q ->
  is_nearest_away (cf c) (qval k n) m ->
  fx_of_fval p c (Fin n k) = if in_range (ct c) m then Ok m else UB.
Proof. exact rounding_negative. Qed.
(** non-negative arguments: the result is half the argument, truncated ... *)
Theorem C05_fp_halves : forall p c n k m, wf c = true -> cr c = true -> 0 <= k -> 0 <= n ->
  is_trunc (cf c) ((1 # 2) * qval k n) m -> fx_of_fval p c (Fin n k) = if in_range (ct c) m then Ok m else UB.
Proof. exact rounding_halves. Qed.
(** ... so the claim fails for every argument above one ulp *)
Theorem C05_fp_never_nearest : forall p c n k m, wf c = true -> cr c = true -> 0 <= k ->
  (qval (cf c) 1 < qval k n)%Q -> fx_of_fval p c (Fin n k) = Ok m -> ~ is_nearest (cf c) (qval k n) m.
Proof. exact rounding_never_nearest. Qed.
Print Assumptions C05_fp_negative_refuted.
Print Assumptions C05_fp_negative.
Print Assumptions C05_fp_halves.
Print Assumptions C05_fp_never_nearest.
(** float -11401279 * 2^-22 (about -2.71828) in fixed32 with rounding: about -178144.98 ulp, nearest -178145 *)
Example C05_fp_case : fp_rep 24 (qval 22 (-11401279)) /\ is_nearest_away 16 (qval 22 (-11401279)) (-178145) /\
  (- qval 22 (-11401279 * 2 ^ 16) + (1 # 2) < inject_Z (2 ^ 23))%Q /\
  ~ (qval 22 (-11401279 * 2 ^ 16) == - ((1 # 2) - qval 25 1))%Q /\
  fx_of_fval 24 F32r (Fin (-11401279) 22) = Ok (-178145) /\ fx_of_fval 24 F32r (Fin 11401279 22) = Ok 89072.
Proof.
  split; [exists (-11401279), 0, 22; repeat split; vm_compute; congruence|].
  repeat split; intros; vm_compute in *; congruence.
Qed.

(** C137 *)
Theorem C137_ctor_defined_iff : forall p c v, wf c = true -> cr c = false -> (forall n k, v = Fin n k -> 0 <= k) ->
  ((exists m, fx_of_fval p c v = Ok m) <->
   exists n k, v = Fin n k /\
   (qval (cf c) (lo (bits (ct c)) (sgn (ct c)) - 1) < qval k n < qval (cf c) (hi (bits (ct c)) (sgn (ct c)) + 1))%Q).
Proof. exact ctor_defined_all. Qed.
Print Assumptions C137_ctor_defined_iff.
Example C137_case : (qval 16 (lo 32 true - 1) < qval 20 (-(2 ^ 35 + 15)) < qval 16 (hi 32 true + 1))%Q /\
  fx_of_fval 53 F32 (Fin (-(2 ^ 35 + 15)) 20) = Ok (-2147483648) /\ fx_of_fval 53 F32 (Fin (-(2 ^ 35 + 16)) 20) = UB /\
  fx_of_fval 53 F32 NaN = UB.
Proof. repeat split; vm_compute; congruence. Qed.

(** C138 *)
Theorem C138_cast_nearest : forall p c m n, 1 <= p -> wf c = true -> valid c m = true -> is_trunc 0 (qval (cf c) m) n ->
  exists r, fx_to_fval p c m = Ok (Fin r 0) /\ fp_nearest p (inject_Z n) (inject_Z r) /\ (Z.abs n <= 2 ^ p -> r = n).
Proof. exact cast_nearest. Qed.
(** of two nearest numbers the one with the even significand (one that does with a bit less) *)
Theorem C138_ties : forall p c m n, 2 <= p -> wf c = true -> valid c m = true -> is_trunc 0 (qval (cf c) m) n ->
  exists r, fx_to_fval p c m = Ok (Fin r 0) /\
    forall r', fp_rep p r' -> ~ (r' == inject_Z r)%Q -> (Qabs (r' - inject_Z n) == Qabs (inject_Z r - inject_Z n))%Q -> fp_rep (p - 1) (inject_Z r).
Proof. exact cast_ties. Qed.
Example C138_ties_case : fp_rep 24 (inject_Z 16777218) /\ (Qabs (inject_Z 16777218 - inject_Z 16777217) == Qabs (inject_Z 16777216 - inject_Z 16777217))%Q /\
  fx_to_fval 24 F64 (33554435 * 2 ^ 31) = Ok (Fin 16777216 0) /\ fx_to_fval 24 F64 (33554439 * 2 ^ 31) = Ok (Fin 16777220 0).
Proof. split; [exists 8388609, 1, 0; repeat split; vm_compute; congruence|]. vm_compute. repeat split; congruence. Qed.
Theorem C138_roundtrip : forall p c m, wf c = true -> cr c = false -> valid c m = true -> is_int (qval (cf c) m) ->
  bits (ct c) - cf c <= p -> (let* v := fx_to_fval p c m in fx_of_fval p c v) = Ok m.
Proof. exact cast_roundtrip. Qed.
Print Assumptions C138_cast_nearest.
Print Assumptions C138_ties.
Print Assumptions C138_roundtrip.
(** fixed64 16777217.5 as float: the integer 16777217 needs 25 bits; the tie goes to the even neighbour *)
Example C138_case : is_trunc 0 (qval 32 (33554435 * 2 ^ 31)) 16777217 /\ fx_to_fval 24 F64 (33554435 * 2 ^ 31) = Ok (Fin 16777216 0) /\
  fx_to_fval 53 F64 (33554435 * 2 ^ 31) = Ok (Fin 16777217 0) /\ is_int (qval 32 (16777217 * 2 ^ 32)) /\
  (let* v := fx_to_fval 53 F64 (16777217 * 2 ^ 32) in fx_of_fval 53 F64 v) = Ok (16777217 * 2 ^ 32).
Proof.
  split; [split; intros; split; vm_compute in *; congruence|]. split; [reflexivity|]. split; [reflexivity|].
  split; [exists 16777217; reflexivity|vm_compute; reflexivity].
Qed.

(** C139: with a class as intermediate type the fraction of the argument is lost ... *)
Theorem C139_class_refuted : exists n k m, 0 <= k /\ representable (bits (ct F64)) (sgn (ct F64)) (cf F64) (qval k n) /\
  fx_of_fval_class F64 (Fin n k) = Ok m /\ ~ is_trunc (cf F64) (qval k n) m /\ fx_of_fval 53 F64 (Fin n k) <> Ok m.
Proof. exact class_ctor_refuted. Qed.
(** ... always: the result is the argument truncated to an integer *)
Theorem C139_class_truncates : forall c n k i, wf c = true -> 0 <= k -> is_trunc 0 (qval k n) i ->
  representable (bits (ct c)) (sgn (ct c)) (cf c) (inject_Z i) ->
  exists m, fx_of_fval_class c (Fin n k) = Ok m /\ valid c m = true /\ (qval (cf c) m == inject_Z i)%Q.
Proof. exact class_ctor_trunc. Qed.
Print Assumptions C139_class_refuted.
Print Assumptions C139_class_truncates.
Example C139_case : is_trunc 0 (qval 2 (-11)) (-2) /\ fx_of_fval_class F64 (Fin (-11) 2) = Ok (-2 * 2 ^ 32) /\
  fx_of_fval 53 F64 (Fin (-11) 2) = Ok (-11 * 2 ^ 30).
Proof. repeat split; intros; vm_compute in *; congruence. Qed.
