(** Reference values for what the code computes, in ordinary arithmetic. *)
From Coq Require Import ZArith Reals.
Open Scope Z_scope.

(** The output function of the random engine over [w]-bit words: v is state * multiplier + seed; a shift count is used modulo
    the width of the word. *)
Definition shifted (w v : Z) : Z := v / 2 ^ (Z.lxor 8 v mod w).
Definition pcg_output (w inc xor mix v : Z) : Z :=
  let a := (shifted w v + inc) mod 2 ^ w in
  let b := (Z.lxor (a * 256 mod 2 ^ w) a * xor) mod 2 ^ w in
  let d := (shifted w b * mix) mod 2 ^ w in
  Z.lxor (Z.land d 0x7FFFFFFE) (d / 256).

(** the signed number in the low 32 bits of a word, and in the low 64 *)
Definition low32 (x : Z) : Z := (x + 2 ^ 31) mod 2 ^ 32 - 2 ^ 31.
Definition low64 (x : Z) : Z := (x + 2 ^ 63) mod 2 ^ 64 - 2 ^ 63.
