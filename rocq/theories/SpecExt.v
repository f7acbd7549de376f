(** Specification vocabulary for the ext/ headers: the value of an ext::int128 and what reducing an angle means. *)
From Coq Require Import ZArith Reals.
From Verif Require Import Base Ext SpecReal.
Open Scope Z_scope.

(** value of a two's complement 128-bit number given by its two words *)
Definition xval (a : xint) : Z := x_high a * 2 ^ 64 + x_low a mod 2 ^ 64.
Definition xok (a : xint) : Prop := in_range int64 (x_high a) = true /\ in_range int64 (x_low a) = true.

Open Scope R_scope.
(** [r] is [x] minus a whole number of turns up to 1.1 ulp per turn, has the sign of [x], and is below 2*pi up to a
    relative 2^-32 per unit of [x] *)
Definition reduced (x r : Z) : Prop :=
  (exists n : Z, Rabs (rval 32 r - (rval 32 x - 2 * PI * IZR n)) <= 1.1 * ulp 32 * Rabs (IZR n)) /\
  ((0 <= x)%Z -> 0 <= rval 32 r) /\ ((x <= 0)%Z -> rval 32 r <= 0) /\
  Rabs (rval 32 r) < 2 * PI * (1 + Rabs (rval 32 x) / 4294967296).

