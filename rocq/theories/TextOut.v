(** Model of the text output of fixed_num: copy_as_chars_to and operator<< (fixed.hpp:518-602,
    654-663).  No proofs in this file.  Characters are their ASCII codes. *)
From Coq Require Import ZArith Bool List.
From Verif Require Import Base Fixed.
Import ListNotations.
Open Scope Z_scope.

(** fixed.hpp:526  digits[i] of "0123456789abcdef" / "0123456789ABCDEF"; index 16 is the
    terminating NUL, anything else is outside the array *)
Definition digit_table (uppercase : bool) (i : Z) : res Z :=
  if (0 <=? i) && (i <? 10) then Ok (48 + i)
  else if (10 <=? i) && (i <? 16) then Ok ((if uppercase then 55 else 87) + i)
  else if i =? 16 then Ok 0
  else UB.

(** fixed.hpp:564-575: the loop collecting the digits of int_part in the buffer.  [buf] is the
    used part of the 514-element array, most recent character first; a full buffer is flushed to
    [out].  [fuel] bounds the iterations (the loop never ends for base 1). *)
Fixpoint int_digits (fuel : nat) (c : cfg) (up : bool) (base : Z) (ip : Z) (buf out : list Z)
  : res (list Z * list Z) :=
  match fuel with
  | O => OutOfFuel
  | S fuel' =>
    if c_lt int32 (ct c) 0 ip then
      let* d := c_rem (ct c) int32 ip base in
      let* ch := digit_table up d in
      let* ip' := c_div (ct c) int32 ip base in
      let buf' := ch :: buf in
      if (Z.of_nat (length buf') =? 514)
      then int_digits fuel' c up base (wrap (ct c) ip') [] (out ++ buf')
      else int_digits fuel' c up base (wrap (ct c) ip') buf' out
    else Ok (buf, out)
  end.

(** fixed.hpp:583-600: the loop writing the fraction digits; [n] is the number of remaining
    iterations of the for loop *)
Fixpoint frac_digits (n : nat) (c : cfg) (up : bool) (base : Z) (value divisor : Z) (out : list Z)
  : res (list Z) :=
  match n with
  | O => Ok out
  | S n' =>
    if c_eq (ct c) int32 value 0 then Ok out
    else
      let* dm := c_rem (ct c) int32 divisor base in
      let* vd :=
        (if dm =? 0 then
           let* d := c_div (ct c) int32 divisor base in Ok (value, wrap (ct c) d)
         else
           let* v := c_mul (ct c) int32 value base in Ok (wrap (ct c) v, divisor)) in
      let '(v, d) := vd in
      let* q := c_div (ct c) (ct c) v d in
      let* dg := c_rem (promote (ct c)) int32 q base in
      let* ch := digit_table up dg in
      let* r := c_rem (ct c) (ct c) v d in
      frac_digits n' c up base (wrap (ct c) r) d (out ++ [ch])
  end.

(** fixed.hpp:518-602 copy_as_chars_to; the result is the sequence of characters written.
    Simplified: the final [iter--] of the reversing loops forms a pointer before the buffer;
    that (harmless on every flat-address machine) is not counted as undefined behaviour. *)
Definition copy_as_chars_to (c : cfg) (m : Z) (base : Z) (up : bool) : res (list Z) :=
  let* divisor0 := c_shl (ct c) 1 (cf c) in
  let divisor := wrap (ct c) divisor0 in
  let* mask := signbit_mask c in
  let* ivo :=
    (if c_eq (ct c) (ct c) m mask then
       let* s := c_shr (ct c) m (cf c) in
       let* i := c_add (promote (ct c)) int32 (c_not (promote (ct c)) s) 1 in
       Ok (wrap (ct c) i, 0, [45])
     else if c_lt (ct c) int32 m 0 then
       let* v := c_neg (ct c) m in
       let v := wrap (ct c) v in
       let* i := c_shr (ct c) v (cf c) in
       Ok (wrap (ct c) i, v, [45])
     else
       let* i := c_shr (ct c) m (cf c) in
       Ok (wrap (ct c) i, m, [])) in
  let '(ip, v, out) := ivo in
  let* v := c_rem (ct c) (ct c) v divisor in
  let v := wrap (ct c) v in
  let* bo :=
    (if c_eq (ct c) int32 ip 0 then Ok ([], out ++ [48])
     else int_digits (S (Z.to_nat (bits (ct c)))) c up base ip [] out) in
  let '(buf, out) := bo in
  let out := out ++ buf in
  if c_eq (ct c) int32 v 0 then Ok out
  else frac_digits (Z.to_nat (cf c)) c up base v divisor (out ++ [46]).

(** fixed.hpp:654-663 operator<<: the base is chosen from the stream flags; [hex], [dec], [oct],
    [uppercase] are the corresponding flag bits *)
Definition stream_base (hex dec oct : bool) : Z :=
  if hex then 16 else if dec then 10 else if oct then 8 else 2.
Definition stream_out (c : cfg) (hex dec oct uppercase : bool) (m : Z) : res (list Z) :=
  copy_as_chars_to c m (stream_base hex dec oct) uppercase.
