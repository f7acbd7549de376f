(** Model of the conversions between fixed_num and floating-point types (fixed.hpp:157-183, 293-299) with the rounding of
    the floating-point type and its special values.  [p] is the number of significant bits of T: 24 for float, 53 for
    double, 64 for the x87 long double.  Simplified: no limit on the exponent.  This changes nothing here: scaling a
    subnormal number up is exact, the difference [val * 2^f - 0.5] of the rounding branch is at least one half in magnitude,
    and a product that overflows to infinity is converted to an integer type, which is undefined like the conversion of
    the exact product would be.  No proofs in this file. *)
From Coq Require Import ZArith Bool.
From Verif Require Import Base Fixed.
Open Scope Z_scope.

(** a floating-point value: the number n / 2^k, an infinity (true: negative), or not a number *)
Inductive fval := Fin (n k : Z) | Inf (neg : bool) | NaN.

(** rounding of an integer to [p] significant bits, to nearest, ties to even (the default rounding mode).  The same
    function rounds the numerator of a fraction n / 2^k. *)
Definition rne_pos (p n : Z) : Z :=
  let s := Z.log2 n + 1 - p in
  if s <=? 0 then n
  else
    let q := n / 2 ^ s in
    let r := n mod 2 ^ s in
    let q1 := if 2 * r <? 2 ^ s then q else if 2 ^ s <? 2 * r then q + 1 else if Z.even q then q else q + 1 in
    q1 * 2 ^ s.
Definition rne (p n : Z) : Z := if n <? 0 then - rne_pos p (- n) else rne_pos p n.

(** fixed.hpp:157-183 explicit fixed_num(T val).  For a non-class intermediate type: [val * fraction_multiplier] (a
    product with a power of two), for rounding = true either halved or with 0.5 subtracted (one rounding), then
    static_cast<Type>.  NaN and infinities stay what they are until the cast, which is undefined for them. *)
Definition fx_of_fval (p : Z) (c : cfg) (v : fval) : res Z :=
  match v with
  | Fin n k =>
      if cr c then
        if 0 <=? n then float_to_int (ct c) (n * 2 ^ cf c) (2 ^ k * 2)
        else float_to_int (ct c) (rne p (2 * (n * 2 ^ cf c) - 2 ^ k)) (2 ^ k * 2)
      else float_to_int (ct c) (n * 2 ^ cf c) (2 ^ k)
  | _ => UB
  end.

(** fixed.hpp:160-177, the branch for an intermediate type that is a class (std::_Signed128 with MSVC,
    detail/int128.hpp:12-31), rounding = false: [static_cast<Type>(Type(val) * fraction_multiplier)].  The class computes
    modulo 2^128 and its conversion to Type keeps the low bits. *)
Definition fx_of_fval_class (c : cfg) (v : fval) : res Z :=
  match v with
  | Fin n k => let* i := float_to_int (ct c) n (2 ^ k) in Ok (wrap (ct c) (wrap (ci c) (i * 2 ^ cf c)))
  | _ => UB
  end.

(** fixed.hpp:293-299 explicit operator T(): the quotient [m_value / fraction_multiplier] is an integer; the conversion
    of that integer to T rounds *)
Definition fx_to_fval (p : Z) (c : cfg) (m : Z) : res fval :=
  let* q := fx_to_float c m in Ok (Fin (rne p q) 0).
