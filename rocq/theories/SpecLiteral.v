(** Specification vocabulary: the spelling and the value of C++ numeric literals ([lex.icon],
    [lex.fcon]), without suffix.  No model file is imported. *)
From Coq Require Import ZArith QArith List.
From Verif Require Import SpecText.
Import ListNotations.
Open Scope Z_scope.

(** [digit_seq b s ds]: [s] spells the digits [ds] in base [b]; a single quote may separate two digits *)
Inductive digit_seq (b : Z) : list Z -> list Z -> Prop :=
| ds_one up d : 0 <= d < b -> digit_seq b [digit_char up d] [d]
| ds_next up d s ds : 0 <= d < b -> digit_seq b s ds -> digit_seq b (digit_char up d :: s) (d :: ds)
| ds_quote up d s ds : 0 <= d < b -> digit_seq b s ds -> digit_seq b (digit_char up d :: 39 :: s) (d :: ds).

(** integer literals: decimal, octal (a leading 0), hexadecimal (0x, 0X), binary (0b, 0B) *)
Inductive int_literal : list Z -> Z -> Prop :=
| il_dec s ds : digit_seq 10 s ds -> hd 0 ds <> 0 -> int_literal s (num 10 ds)
| il_oct s ds : digit_seq 8 s ds -> hd 1 ds = 0 -> int_literal s (num 8 ds)
| il_hex x s ds : x = 120 \/ x = 88 -> digit_seq 16 s ds -> int_literal (48 :: x :: s) (num 16 ds)
| il_bin x s ds : x = 98 \/ x = 66 -> digit_seq 2 s ds -> int_literal (48 :: x :: s) (num 2 ds).

(** decimal floating literals ip.fp and ip.fpe[+-]ds *)
Inductive float_literal : list Z -> Q -> Prop :=
| fl_plain s t ip fp : digit_seq 10 s ip -> digit_seq 10 t fp -> float_literal (s ++ 46 :: t) (numeral 10 false ip fp)
| fl_exp s t u ip fp e ds sg : digit_seq 10 s ip -> digit_seq 10 t fp -> digit_seq 10 u ds -> e = 101 \/ e = 69 ->
    sg = [] \/ sg = [43] ->
    float_literal (s ++ 46 :: t ++ e :: sg ++ u) (numeral 10 false ip fp * inject_Z (10 ^ num 10 ds))
| fl_neg s t u ip fp e ds : digit_seq 10 s ip -> digit_seq 10 t fp -> digit_seq 10 u ds -> e = 101 \/ e = 69 ->
    float_literal (s ++ 46 :: t ++ e :: 45 :: u) (numeral 10 false ip fp / inject_Z (10 ^ num 10 ds)).

(** only decimal digits *)
Definition all_digits (s : list Z) : Prop := Forall (fun ch => 48 <= ch <= 57) s.
