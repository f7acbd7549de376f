(** Property theorems C86, C87, C108, C109: ext/cordic.hpp.  Statements only; proofs are in CordicThms.v. *)
From Coq Require Import ZArith Reals.
From Verif Require Import Base Fixed SpecReal Cordic CordicThms.
Open Scope R_scope.

(** C86 *)
Theorem C86_sine32 : forall m, valid F32 m = true -> (0 <= m)%Z ->
  exists y, cordic_sine32 m = Ok y /\ Rabs (rval 16 y - sin (rval 16 m)) <= ulp 16 * (77 + rval 16 m / 7).
Proof. exact sine32_ok. Qed.
Theorem C86_sine64 : forall m, valid F64 m = true -> (0 <= m)%Z ->
  exists y, cordic_sine64 m = Ok y /\ Rabs (rval 32 y - sin (rval 32 m)) <= ulp 32 * (81 + rval 32 m / 6).
Proof. exact sine64_ok. Qed.
Example C86_case : valid F32 65536 = true /\ cordic_sine32 65536 = Ok 55150%Z /\ cordic_sine64 (2 ^ 32) = Ok 3614090358%Z.
Proof. split; [reflexivity|exact case86]. Qed.
Print Assumptions C86_sine32.
Print Assumptions C86_sine64.

(** C87: the sign bit is cleared instead of the number negated, so the sine of a negative angle is minus the sine of the
    angle plus half the type's range *)
Theorem C87_negative32 : forall m, valid F32 m = true -> (m < 0)%Z -> exists y x,
  cordic_sine32 (m + 2 ^ 31) = Ok y /\ cordic_sine32 m = Ok (- y)%Z /\
  cordic_cosine32 (m + 2 ^ 31) = Ok x /\ cordic_cosine32 m = Ok x.
Proof. exact neg32. Qed.
Theorem C87_negative64 : forall m, valid F64 m = true -> (m < 0)%Z -> exists y x,
  cordic_sine64 (m + 2 ^ 63) = Ok y /\ cordic_sine64 m = Ok (- y)%Z /\
  cordic_cosine64 (m + 2 ^ 63) = Ok x /\ cordic_cosine64 m = Ok x.
Proof. exact neg64. Qed.
Theorem C87_odd_refuted : exists m a b, valid F32 m = true /\ rval 16 m = 1 /\ cordic_sine32 m = Ok a /\
  cordic_sine32 (- m) = Ok b /\ b <> (- a)%Z /\ 0.5 < Rabs (rval 16 b - sin (-1)).
Proof. exact odd_refuted. Qed.
Example C87_case : cordic_sine32 (-65536) = Ok (-16526)%Z /\ cordic_sine32 (-65536 + 2 ^ 31) = Ok 16526%Z.
Proof. exact case87. Qed.
Print Assumptions C87_negative32.
Print Assumptions C87_odd_refuted.

(** C108 *)
Theorem C108_cosine32 : forall m, valid F32 m = true -> (0 <= m)%Z ->
  exists x, cordic_cosine32 m = Ok x /\ Rabs (rval 16 x - cos (rval 16 m)) <= ulp 16 * (77 + rval 16 m / 7).
Proof. exact cosine32_ok. Qed.
Theorem C108_cosine64 : forall m, valid F64 m = true -> (0 <= m)%Z ->
  exists x, cordic_cosine64 m = Ok x /\ Rabs (rval 32 x - cos (rval 32 m)) <= ulp 32 * (81 + rval 32 m / 6).
Proof. exact cosine64_ok. Qed.
Example C108_case : cordic_cosine32 (3 * 65536) = Ok (-64879)%Z.
Proof. exact case108. Qed.
Print Assumptions C108_cosine64.

(** C109 *)
Theorem C109_zero_refuted : exists y z,
  cordic_sine32 0 = Ok y /\ rval 16 y = -8 * ulp 16 /\ cordic_sine64 0 = Ok z /\ rval 32 z = -3 * ulp 32.
Proof. exact zero_refuted. Qed.
Print Assumptions C109_zero_refuted.
Print Assumptions C87_negative64.
Print Assumptions C108_cosine32.
