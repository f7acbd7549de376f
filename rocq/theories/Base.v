(** C++20 integer semantics (LP64) used by every model file.

    Not a model of repository code itself: this is the language layer.  Everything that the
    C++ standard leaves undefined is the distinct outcome [UB]. *)
From Coq Require Import ZArith Bool List.
Import ListNotations.
Open Scope Z_scope.

(** Exceptions the library throws (include/eirin/error.hpp, std::domain_error in math.hpp,
    std::format_error in io/format.hpp). *)
Inductive exn := divide_by_zero | domain_error | format_error | invalid_argument
| terminated.  (* std::terminate: an exception left a noexcept function *)

(** Outcome of running a piece of code. *)
Inductive res (A : Type) : Type :=
| Ok (a : A)          (* normal completion *)
| UB                  (* undefined behaviour was reached *)
| Throw (e : exn)     (* an exception was thrown *)
| OutOfFuel.          (* the model's loop fuel ran out: never a legitimate result *)
Arguments Ok {A} a.
Arguments UB {A}.
Arguments Throw {A} e.
Arguments OutOfFuel {A}.

Definition bind {A B} (m : res A) (f : A -> res B) : res B :=
  match m with
  | Ok a => f a
  | UB => UB
  | Throw e => Throw e
  | OutOfFuel => OutOfFuel
  end.
Notation "'let*' x ':=' m 'in' k" := (bind m (fun x => k))
  (at level 200, x pattern, m at level 100, k at level 200, right associativity).

Definition res_map {A B} (f : A -> B) (m : res A) : res B := let* a := m in Ok (f a).

(** An integral type: width in bits and signedness. *)
Record ity := { bits : Z; sgn : bool }.

Definition int8 := {| bits := 8; sgn := true |}.
Definition int16 := {| bits := 16; sgn := true |}.
Definition int32 := {| bits := 32; sgn := true |}.
Definition int64 := {| bits := 64; sgn := true |}.
Definition int128 := {| bits := 128; sgn := true |}.
Definition uint8 := {| bits := 8; sgn := false |}.
Definition uint16 := {| bits := 16; sgn := false |}.
Definition uint32 := {| bits := 32; sgn := false |}.
Definition uint64 := {| bits := 64; sgn := false |}.
Definition uint128 := {| bits := 128; sgn := false |}.

(** The widths that exist. *)
Definition ity_ok (t : ity) : bool :=
  (bits t =? 8) || (bits t =? 16) || (bits t =? 32) || (bits t =? 64) || (bits t =? 128).

Definition minv (t : ity) : Z := if sgn t then - 2 ^ (bits t - 1) else 0.
Definition maxv (t : ity) : Z := if sgn t then 2 ^ (bits t - 1) - 1 else 2 ^ bits t - 1.
Definition in_range (t : ity) (x : Z) : bool := (minv t <=? x) && (x <=? maxv t).

(** Conversion to an integral type: modulo 2^bits (C++20 [conv.integral]). *)
Definition wrap (t : ity) (x : Z) : Z :=
  if sgn t then (x + 2 ^ (bits t - 1)) mod 2 ^ bits t - 2 ^ (bits t - 1)
  else x mod 2 ^ bits t.

(** Integral promotion ([conv.prom]): every type narrower than int becomes int. *)
Definition promote (t : ity) : ity := if bits t <? 32 then int32 else t.

(** Usual arithmetic conversions ([expr.arith.conv]). *)
Definition uac (t1 t2 : ity) : ity :=
  let a := promote t1 in
  let b := promote t2 in
  if Bool.eqb (sgn a) (sgn b) then (if bits a <? bits b then b else a)
  else
    let u := if sgn a then b else a in
    let s := if sgn a then a else b in
    if bits s <=? bits u then u else s.

(** Result of an exact arithmetic operation in (promoted) type [t]. *)
Definition arith (t : ity) (r : Z) : res Z :=
  if sgn t then (if in_range t r then Ok r else UB) else Ok (wrap t r).

(** Binary operators on operands [x] of type [t1] and [y] of type [t2]; the result has type
    [uac t1 t2]. *)
Definition c_add (t1 t2 : ity) (x y : Z) : res Z :=
  let t := uac t1 t2 in arith t (wrap t x + wrap t y).
Definition c_sub (t1 t2 : ity) (x y : Z) : res Z :=
  let t := uac t1 t2 in arith t (wrap t x - wrap t y).
Definition c_mul (t1 t2 : ity) (x y : Z) : res Z :=
  let t := uac t1 t2 in arith t (wrap t x * wrap t y).
Definition c_div (t1 t2 : ity) (x y : Z) : res Z :=
  let t := uac t1 t2 in
  let a := wrap t x in
  let b := wrap t y in
  if b =? 0 then UB else arith t (Z.quot a b).
(** [a % b] is undefined exactly when [a / b] is. *)
Definition c_rem (t1 t2 : ity) (x y : Z) : res Z :=
  let t := uac t1 t2 in
  let a := wrap t x in
  let b := wrap t y in
  if b =? 0 then UB
  else if sgn t && negb (in_range t (Z.quot a b)) then UB
  else Ok (Z.rem a b).
(** Comparison after the usual arithmetic conversions. *)
Definition c_lt (t1 t2 : ity) (x y : Z) : bool :=
  let t := uac t1 t2 in wrap t x <? wrap t y.
Definition c_le (t1 t2 : ity) (x y : Z) : bool :=
  let t := uac t1 t2 in wrap t x <=? wrap t y.
Definition c_eq (t1 t2 : ity) (x y : Z) : bool :=
  let t := uac t1 t2 in wrap t x =? wrap t y.
Definition c_and (t1 t2 : ity) (x y : Z) : Z :=
  let t := uac t1 t2 in Z.land (wrap t x) (wrap t y).
(** Unary operators; result type [promote t]. *)
Definition c_neg (t : ity) (x : Z) : res Z := arith (promote t) (- x).
Definition c_not (t : ity) (x : Z) : Z := wrap (promote t) (Z.lnot x).
(** Shifts: result type is the promoted left operand; shift count outside [0, width) is UB. *)
Definition c_shl (t : ity) (x s : Z) : res Z :=
  let p := promote t in
  if (0 <=? s) && (s <? bits p) then Ok (wrap p (Z.shiftl x s)) else UB.
Definition c_shr (t : ity) (x s : Z) : res Z :=
  let p := promote t in
  if (0 <=? s) && (s <? bits p) then Ok (Z.shiftr x s) else UB.
