(** Model of the numeric literals 16_f32, 1.5_f32, 16_f64, 1.5_f64 (fixed.hpp:775-822).  No proofs in this file.

    Overload choice ([lex.ext]): for _f32 the cooked operators taking unsigned long long and long
    double exist, so the compiler first computes the number (an unsigned long long, or a long double
    n / 2^k); for _f64 only the literal operator template exists, which receives the characters of
    the literal as they are written, without the suffix. *)
From Coq Require Import ZArith Bool List.
From Verif Require Import Base Fixed TextIn.
Import ListNotations.
Open Scope Z_scope.

(** fixed.hpp:777-780 *)
Definition f32_int_literal (n : Z) : res Z := fx_of_int F32 n.
(** fixed.hpp:782-785; a long double is n / 2^k *)
Definition f32_float_literal (n k : Z) : res Z := fx_of_float F32 n k.
(** fixed.hpp:812-820; [uninit] is the unspecified value of the local variable [fp] *)
Definition f64_numeric_literal (chars : list Z) (uninit : Z) : res Z := literal F64 chars uninit.
