(** Property theorems: numeric literals.  Statements only; proofs are in LiteralProofs.v. *)
From Coq Require Import ZArith QArith List String.
From Verif Require Import Base Fixed Literal Spec SpecText SpecLiteral InProofs LiteralProofs.
Import ListNotations.
Open Scope Z_scope.

(** C134: decimal integers without separators have their C++ value; [n < 2 ^ 31] is the range of fixed64 *)
Theorem C134_decimal_integer : forall s n u, int_literal s n -> all_digits s -> (hd 0 s <> 48 \/ s = [48]) -> n < 2 ^ 31 ->
  exists m, f64_numeric_literal s u = Ok m /\ valid F64 m = true /\ (qval 32 m == inject_Z n)%Q.
Proof. exact plain_int. Qed.
(** every other spelling of an integer of at most 38 characters but octal (hexadecimal, binary,
    digit separators) is not read: the result is the unspecified initial value [u] of the variable *)
Theorem C134_other_spellings_refuted : forall s n u, int_literal s n -> ~ all_digits s -> Z.of_nat (List.length s) <= 38 ->
  f64_numeric_literal s u = Ok u.
Proof. exact unread. Qed.
(** octal literals are read as decimal *)
Theorem C134_octal_is_decimal : forall ds u, is_digits 8 ds -> num 10 ds < 2 ^ 31 ->
  int_literal (map (digit_char false) (0 :: ds)) (num 8 ds) /\
  exists m, f64_numeric_literal (map (digit_char false) (0 :: ds)) u = Ok m /\ valid F64 m = true /\ (qval 32 m == inject_Z (num 10 ds))%Q.
Proof. exact octal. Qed.
Theorem C134_octal_refuted : int_literal (txt "010") 8 /\
  forall u, exists m, f64_numeric_literal (txt "010") u = Ok m /\ (qval 32 m == 10)%Q.
Proof. exact octal_bad. Qed.
(** an exponent after at most nine fraction digits makes the literal unread; after more digits it can be dropped *)
Theorem C134_exponent_unread : forall s t ip fp e tail u, digit_seq 10 s ip -> all_digits s -> digit_seq 10 t fp -> all_digits t ->
  e = 101 \/ e = 69 -> num 10 ip < 2 ^ 31 -> Z.of_nat (List.length fp) <= 9 ->
  f64_numeric_literal (s ++ 46 :: t ++ e :: tail) u = Ok u.
Proof. exact exponent_unread. Qed.
Theorem C134_exponent_refuted : exists q, float_literal (txt "1.23456789012e3") q /\ (1234 < q)%Q /\
  forall u, exists m, f64_numeric_literal (txt "1.23456789012e3") u = Ok m /\ (qval 32 m < 2)%Q.
Proof. exact exponent_bad. Qed.
(** the cooked operator of fixed32 has no such problem *)
Theorem C134_f32_integer : forall s n, int_literal s n -> n < 2 ^ 15 ->
  exists m, f32_int_literal n = Ok m /\ valid F32 m = true /\ (qval 16 m == inject_Z n)%Q.
Proof. exact f32_int. Qed.
Example C134_case : int_literal (txt "0x1F") 31 /\ f64_numeric_literal (txt "0x1F") 77 = Ok 77 /\
  int_literal (txt "1'000") 1000 /\ f64_numeric_literal (txt "1'000") 77 = Ok 77 /\
  int_literal (txt "42") 42 /\ f64_numeric_literal (txt "42") 77 = Ok 180388626432 /\ f32_int_literal 31 = Ok 2031616 /\
  f64_numeric_literal (txt "1.5e3") 77 = Ok 77.
Proof.
  repeat match goal with |- _ /\ _ => split end; try reflexivity.
  - apply (il_hex 120 [49; 70] [1; 15]); auto. apply (ds_next 16 true 1 [70] [15]); [vm_compute; split; congruence|]. apply (ds_one 16 true 15). vm_compute. split; congruence.
  - apply (il_dec (txt "1'000") [1; 0; 0; 0]); [|discriminate].
    apply (ds_quote 10 true 1 [48; 48; 48] [0; 0; 0]); [vm_compute; split; congruence|].
    apply (ds_next 10 true 0 [48; 48] [0; 0]); [vm_compute; split; congruence|].
    apply (ds_next 10 true 0 [48] [0]); [vm_compute; split; congruence|]. apply (ds_one 10 true 0). vm_compute; split; congruence.
  - apply (il_dec (txt "42") [4; 2]); [|discriminate].
    apply (ds_next 10 true 4 [50] [2]); [vm_compute; split; congruence|]. apply (ds_one 10 true 2). vm_compute; split; congruence.
Qed.
Print Assumptions C134_decimal_integer.
Print Assumptions C134_other_spellings_refuted.
Print Assumptions C134_octal_is_decimal.
Print Assumptions C134_octal_refuted.
Print Assumptions C134_exponent_unread.
Print Assumptions C134_exponent_refuted.
Print Assumptions C134_f32_integer.
