(** Model of operator>> (fixed.hpp:1034-1093) for any character type.  [w] is the integer type of CharT: int8 for char
    (signed on the modelled target), int32 for wchar_t.  The stream holds the values of the traits' int_type (bytes 0..255
    for char, 0..2^31-1 for wchar_t); end of file is -1 after the conversion to CharT.  TextIn.v has the case char.
    No proofs in this file. *)
From Coq Require Import ZArith Bool List.
From Verif Require Import Base Fixed TextIn.
Import ListNotations.
Open Scope Z_scope.

(** fixed.hpp:1039-1051, the lambdas: is.peek() and is.get() are converted to CharT *)
Definition g_peek (w : ity) (st : istream) : Z * istream := let '(v, st) := is_peek st in (wrap w v, st).
Definition g_next (w : ity) (st : istream) : Z * istream := let '(v, st) := is_get st in (wrap w v, st).

(** fixed.hpp:1064-1069; [isdigit(peek())] promotes CharT to int *)
Fixpoint g_int_loop (fuel : nat) (w t : ity) (st : istream) (acc : Z) : res (Z * istream) :=
  match fuel with
  | O => OutOfFuel
  | S fuel' =>
    let '(h, st) := s_has_next st in
    if h then
      let '(ch, st) := g_peek w st in
      if ch =? 46 then Ok (acc, st)
      else
        let '(ch, st) := g_peek w st in
        let* d := isdigit ch in
        if negb d then Ok (acc, st)
        else
          let '(ch, st) := g_next w st in
          let* a := push_digit t acc ch in
          g_int_loop fuel' w t st a
    else Ok (acc, st)
  end.
(** fixed.hpp:1076-1083 *)
Fixpoint g_dec_loop (fuel : nat) (w t tm : ity) (lim : Z) (st : istream) (dec div : Z) : res (Z * Z * istream) :=
  match fuel with
  | O => OutOfFuel
  | S fuel' =>
    let '(h, st) := s_has_next st in
    if h then
      if c_lt tm t lim dec then Ok (dec, div, st)
      else
        let '(ch, st) := g_peek w st in
        let* d := isdigit ch in
        if negb d then Ok (dec, div, st)
        else
          let '(ch, st) := g_next w st in
          let* dec' := push_digit t dec ch in
          let* dv := c_mul t int32 div 10 in
          g_dec_loop fuel' w t tm lim st dec' (wrap t dv)
    else Ok (dec, div, st)
  end.

(** fixed.hpp:1034-1093 *)
Definition read_in (w : ity) (c : cfg) (st : istream) (fp : Z) : res (Z * istream) :=
  let fuel := S (length (rest st)) in
  let '(h, st) := s_has_next st in
  if negb h then Ok (fp, st)
  else
    let '(ch, st) := g_peek w st in
    let '(negative, st) := (if ch =? 45 then let '(_, st) := g_next w st in (true, st) else (false, st)) in
    let* r := g_int_loop fuel w (ct c) st 0 in
    let '(int_part, st) := r in
    let '(h, st) := s_has_next st in
    let* r :=
      (let '(dot, st) :=
         (if h then let '(ch, st) := g_peek w st in (ch =? 46, st) else (false, st)) in
       if dot then
         let '(_, st) := g_next w st in
         let* one := c_shl (ct c) 1 (cf c) in
         let* max_fraction := c_sub (promote (ct c)) (ct c) one 1 in
         let* lim := c_div (promote (ct c)) int32 max_fraction 10 in
         let* r := g_dec_loop fuel w (ct c) (uac (promote (ct c)) int32) lim st 0 1 in
         let '(dec_part, divisor, st) := r in
         let* v := combine (ct c) (cf c) int_part dec_part divisor in
         Ok (wrap (ct c) v, st)
       else
         let* v := c_shl (ct c) int_part (cf c) in
         Ok (wrap (ct c) v, st)) in
    let '(v, st) := r in
    if negative then let* n := fx_neg c v in Ok (n, st) else Ok (v, st).
Definition wide_in := read_in int32.
