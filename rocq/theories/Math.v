(** Model of include/eirin/math.hpp and of the square-root start values of include/eirin/fixed.hpp.
    No proofs in this file. *)
From Coq Require Import ZArith Bool List.
From Verif Require Import Base Fixed.
Open Scope Z_scope.

(** An exception that leaves a function declared noexcept ends the program ([except.spec]). *)
Definition noexcept {A} (m : res A) : res A :=
  match m with Throw _ => Throw terminated | _ => m end.

(** math.hpp:19-29 max_value / min_value *)
Definition max_value (c : cfg) : Z := nl_max c.
Definition min_value (c : cfg) : Z := nl_min c.

(** math.hpp:35, 49, 64, 72  [T(1) << f]; its type is promote T *)
Definition frac_mult (c : cfg) : res Z := c_shl (ct c) 1 (cf c).

(** math.hpp:31-43 *)
Definition fx_ceil (c : cfg) (m : Z) : res Z :=
  let t := ct c in
  let p := promote t in
  let* fm := frac_mult c in
  let* value :=
    (if c_lt int32 t 0 m then
       let* d := c_sub p int32 fm 1 in
       let* s := c_add t p m d in Ok (wrap t s)
     else Ok m) in
  if c_lt t int32 value 0 then
    let* q := c_div t p m fm in
    let* k := c_mul p p q fm in
    let* a := c_add p p k fm in
    let* s := c_sub p int32 a 1 in
    Ok (from_internal_value c (wrap t s))
  else
    let* q := c_div t p value fm in
    let* k := c_mul p p q fm in
    Ok (from_internal_value c (wrap t k)).

(** math.hpp:45-58 *)
Definition fx_floor (c : cfg) (m : Z) : res Z :=
  let t := ct c in
  let p := promote t in
  let* fm := frac_mult c in
  let neg := c_lt t int32 m 0 in
  let* value :=
    (if c_lt t int32 m 0 then
       let* d := c_sub p int32 fm 1 in
       let* s := c_sub t p m d in Ok (wrap t s)
     else Ok m) in
  if neg && c_lt int32 t 0 value then
    let* q := c_div t p m fm in
    let* k := c_mul p p q fm in
    let* a := c_sub p p k fm in
    let* s := c_add p int32 a 1 in
    Ok (from_internal_value c (wrap t s))
  else
    let* q := c_div t p value fm in
    let* k := c_mul p p q fm in
    Ok (from_internal_value c (wrap t k)).

(** math.hpp:60-66 *)
Definition fx_trunc (c : cfg) (m : Z) : res Z :=
  let t := ct c in
  let p := promote t in
  let* fm := frac_mult c in
  let* q := c_div t p m fm in
  let* k := c_mul p p q fm in
  Ok (from_internal_value c (wrap t k)).

(** math.hpp:68-75 *)
Definition fx_round (c : cfg) (m : Z) : res Z :=
  let t := ct c in
  let p := promote t in
  let* fm := frac_mult c in
  let* h := c_div p int32 fm 2 in
  let* value := c_div t p m h in
  let* a := c_div p int32 value 2 in
  let* b := c_rem p int32 value 2 in
  let* s := c_add p p a b in
  let* k := c_shl p s (cf c) in
  Ok (from_internal_value c (wrap t k)).

(** math.hpp:77-83 *)
Definition fx_abs (c : cfg) (m : Z) : res Z :=
  let t := ct c in
  let* v := (if c_lt t int32 m 0 then c_neg t m else Ok m) in
  Ok (from_internal_value c (wrap t v)).

(** math.hpp:85-99 *)
Definition fx_min (c : cfg) (a b : Z) : Z := if c_lt (ct c) (ct c) a b then a else b.
Definition fx_max (c : cfg) (a b : Z) : Z := if c_lt (ct c) (ct c) b a then a else b.

(** ** sqrt *)

(** math.hpp:126-131, 139-144, 152-157: the trial subtraction of the bit-hack loops, on uint64_t.
    Returns (v, q). *)
Definition sqrt_trial (q b v : Z) : res (Z * Z) :=
  let* t := c_add uint64 uint64 q b in
  if c_le uint64 uint64 t v then
    let* v1 := c_sub uint64 uint64 v t in
    let* q1 := c_add uint64 uint64 t b in
    Ok (v1, q1)
  else Ok (v, q).

(** math.hpp:124-134 [while(b != 0x40)]; returns q *)
Fixpoint sqrt_loop1 (fuel : nat) (q b v : Z) : res Z :=
  if c_eq uint64 int32 b 0x40 then Ok q
  else match fuel with
  | O => OutOfFuel
  | S k =>
      let* (v1, q1) := sqrt_trial q b v in
      let* v2 := c_shl uint64 v1 1 in
      let* b2 := c_shr uint64 b 1 in
      sqrt_loop1 k q1 b2 v2
  end.

(** math.hpp:150-160 [while(b > 0x20)]; returns q *)
Fixpoint sqrt_loop3 (fuel : nat) (q b v : Z) : res Z :=
  if c_lt int32 uint64 0x20 b then
    match fuel with
    | O => OutOfFuel
    | S k =>
        let* (v1, q1) := sqrt_trial q b v in
        let* v2 := c_shl uint64 v1 1 in
        let* b2 := c_shr uint64 b 1 in
        sqrt_loop3 k q1 b2 v2
    end
  else Ok q.

(** math.hpp:137-166 [while(b > 0x40)] with the switch to the halved loop; returns the raw result
    before the cast *)
Fixpoint sqrt_loop2 (fuel : nat) (q b v : Z) : res Z :=
  if c_lt int32 uint64 0x40 b then
    match fuel with
    | O => OutOfFuel
    | S k =>
        let* (v1, q1) := sqrt_trial q b v in
        if negb (c_and uint64 uint32 v1 0x80000000 =? 0) then
          let* q2 := c_shr uint64 q1 1 in
          let* b2 := c_shr uint64 b 1 in
          let* v2 := c_shr uint64 v1 1 in
          let* q3 := sqrt_loop3 64 q2 b2 v2 in
          c_shr uint64 q3 7
        else
          let* v2 := c_shl uint64 v1 1 in
          let* b2 := c_shr uint64 b 1 in
          sqrt_loop2 k q1 b2 v2
    end
  else c_shr uint64 q 8.

(** math.hpp:107-167, the branch for T = int32_t *)
Definition sqrt_int32 (c : cfg) (m : Z) : res Z :=
  let* v0 :=
    (if cf c >? 16 then c_shr (ct c) m (cf c - 16)
     else c_shl (ct c) m (16 - cf c)) in
  let v := wrap uint64 v0 in
  let* r :=
    (if c_lt uint64 int32 v 0x40000200 then
       let* q := sqrt_loop1 64 0 0x40000000 v in
       c_shr uint64 q 8
     else sqrt_loop2 64 0 0x40000000 v) in
  Ok (from_internal_value c (wrap (ct c) r)).

(** fixed.hpp:36-49 sqrt_init_value<T, F, E>::value() *)
Definition sqrt_init_value (c : cfg) (E : Z) : res Z :=
  let t := ct c in
  let half_exp := E / 2 in
  let adjust := negb (E mod 2 =? 0) in
  let* b0 := c_shl t 1 half_exp in
  let base := wrap t b0 in
  let* value :=
    (if adjust then
       let* s := c_shr t base 1 in Ok (wrap t (Z.lor base s))
     else Ok base) in
  let* r := c_shl t value (cf c / 2 + cf c mod 2) in
  Ok (wrap t r).

(** fixed.hpp:51-61, 509, 511-516: the table has one entry per bit of T and the index is clamped *)
Definition get_sqrt_init_value (c : cfg) (exponent : Z) : res Z :=
  let max_exponent := bits (ct c) - 1 in
  sqrt_init_value c (if exponent <? 0 then 0 else if max_exponent <? exponent then max_exponent else exponent).

(** fixed.hpp:73-80 [while(value >>= 1) ++bits;] for an unsigned type [u] *)
Fixpoint find_msb_loop (fuel : nat) (u : ity) (value n : Z) : res Z :=
  let* s := c_shr u value 1 in
  let value1 := wrap u s in
  if value1 =? 0 then Ok n
  else match fuel with
  | O => OutOfFuel
  | S k => find_msb_loop k u value1 (n + 1)
  end.
(** fixed.hpp:63-81 *)
Definition find_msb (t : ity) (value : Z) : res Z :=
  if value =? 0 then Ok (-1)
  else
    let u := {| bits := bits t; sgn := false |} in
    if sgn t then
      let* a := (if c_lt t int32 value 0 then c_neg t value else Ok value) in
      let w := wrap u a in
      if w =? 0 then Ok (-1) else find_msb_loop 64 u w 0
    else find_msb_loop 64 u value 0.

(** math.hpp:181-187 the Newton loop, [k] iterations left *)
Fixpoint sqrt_newton (k : nat) (c : cfg) (fp eps x : Z) : res Z :=
  match k with
  | O => Ok x
  | S k' =>
      let* d := fx_div c fp x in
      let* s := fx_add c x d in
      let* x1 := fx_div_int c int32 s 2 in
      let* p := fx_mul c x1 x1 in
      let* e := fx_sub c fp p in
      let* a := fx_abs c e in
      if fx_lt c a eps then Ok x1 else sqrt_newton k' c fp eps x1
  end.

(** math.hpp:168-188, the branch for other T *)
Definition sqrt_generic (c : cfg) (fp : Z) : res Z :=
  let* zero := fx_of_int c 0 in
  if fx_lt c fp zero then fx_of_int c (-1)
  else if fx_eq c fp zero then fx_of_int c 0
  else
    let* exponent := find_msb (ct c) fp in
    let* x0 := get_sqrt_init_value c exponent in
    let* eps := fx_epsilon c in
    sqrt_newton 5 c fp eps x0.

(** math.hpp:101-189 *)
Definition fx_sqrt (c : cfg) (m : Z) : res Z :=
  if sgn (ct c) && (bits (ct c) =? 32) then sqrt_int32 c m else sqrt_generic c m.

(** ** Constants of numbers.hpp *)

(** numbers.hpp:14-18, 21-25 (the other constants are in Numbers.v) *)
Definition e_v (c : cfg) : res Z := from_fixed_num_value c 61 int64 0x56FC2A2C515DA54D.
Definition pi_v (c : cfg) : res Z := from_fixed_num_value c 61 int64 0x6487ED5110B4611A.

(** ** Trigonometry *)

(** math.hpp:225 [fixed(0.00015)]: the double nearest to 0.00015 is
    0x13A92A30553261 / 2^65 *)
Definition sin_threshold (c : cfg) : res Z := fx_of_float c 0x13A92A30553261 65.

(** math.hpp:235-240 the polynomial on the reduced argument *)
Definition sin_poly (c : cfg) (x : Z) : res Z :=
  let* fp1 := fx_of_int c 1 in
  let* x2 := fx_mul c x x in
  let* pi := pi_v c in
  let* pipi := fx_mul c pi pi in
  let* a := fx_div_int c int32 pipi 24 in
  let* b := fx_div_int c int32 pipi 80 in
  let* cc := fx_div_int c int32 pipi 168 in
  let* d := fx_div_int c int32 pipi 288 in
  let* d1 := fx_mul c d x2 in
  let* d2 := fx_sub c fp1 d1 in
  let* c0 := fx_mul c cc x2 in
  let* c1 := fx_mul c c0 d2 in
  let* c2 := fx_sub c fp1 c1 in
  let* b0 := fx_mul c b x2 in
  let* b1 := fx_mul c b0 c2 in
  let* b2 := fx_sub c fp1 b1 in
  let* a0 := fx_mul c a x2 in
  let* a1 := fx_mul c a0 b2 in
  let* a2 := fx_sub c fp1 a1 in
  let* pi' := fx_pi c in
  let* r0 := fx_mul c pi' x in
  let* r1 := fx_mul c r0 a2 in
  fx_div_int c int32 r1 2.

(** math.hpp:202-242 *)
Definition fx_sin (c : cfg) (fp : Z) : res Z :=
  let* dpi := fx_double_pi c in
  let* x := fx_rem_assign c fp dpi in
  let* pi2 := fx_pi_2 c in
  let* x := fx_div_assign c x pi2 in
  let* fp1 := fx_of_int c 1 in
  let* fp2 := fx_of_int c 2 in
  let* zero := fx_of_int c 0 in
  let* x :=
    (if fx_lt c x zero then
       let* four := fx_of_int c 4 in fx_add_assign c x four
     else Ok x) in
  let negative := fx_gt c x fp2 in
  let* x := (if negative then fx_sub_assign c x fp2 else Ok x) in
  let* th := sin_threshold c in
  let* ab := fx_abs c fp in
  if fx_lt c ab th then (if negative then fx_neg c fp else Ok fp)
  else
    let* x := (if fx_gt c x fp1 then fx_sub c fp2 x else Ok x) in
    let* r := sin_poly c x in
    if negative then fx_neg c r else Ok r.

(** math.hpp:255-262 *)
Definition fx_cos (c : cfg) (fp : Z) : res Z :=
  let* pi := pi_v c in
  let* two := fx_of_int c 2 in
  let* pi_2 := fx_div c pi two in
  let* double_pi := fx_mul c pi two in
  let* arg :=
    (if c_lt int32 (ct c) 0 fp then
       let* d := fx_sub c double_pi pi_2 in fx_sub c fp d
     else fx_add c fp pi_2) in
  fx_sin c arg.

(** math.hpp:264-272 *)
Definition fx_tan (c : cfg) (fp : Z) : res Z :=
  let* cosx := fx_cos c fp in
  let* a := fx_abs c cosx in
  if c_lt int32 (ct c) 1 a then
    let* s := fx_sin c fp in fx_div c s cosx
  else Throw domain_error.

(** math.hpp:291-293 (the hexadecimal literals have type long) *)
Definition atan_a (c : cfg) : res Z :=
  let* v := from_fixed_num_value c 61 int64 0x17CE62CE264A340 in int_mul_fx c int32 (-1) v.
Definition atan_b (c : cfg) : res Z := from_fixed_num_value c 61 int64 0x5191A2296020A80.
Definition atan_c (c : cfg) : res Z := from_fixed_num_value c 61 int64 0xA7BE2BC19C39800.

(** math.hpp:295-298 the polynomial on the magnitude *)
Definition atan_poly (c : cfg) (x : Z) : res Z :=
  let* a := atan_a c in
  let* b := atan_b c in
  let* cc := atan_c c in
  let* x2 := fx_mul c x x in
  let* r := fx_mul c a x2 in
  let* r := fx_add c r b in
  let* r := fx_mul c r x2 in
  let* r := fx_sub c r cc in
  let* r := fx_mul c r x2 in
  let* r := fx_mul c r x in
  fx_add c r x.

(** math.hpp:287-321 *)
Definition fx_atan (c : cfg) (fp : Z) : res Z :=
  let* x := fx_abs c fp in
  let* result := atan_poly c x in
  let* k := signbit_mask c in
  if negb (c_and (ct c) (ct c) k fp =? 0) then fx_neg c result else Ok result.

(** math.hpp:323-334 *)
Definition fx_asin (c : cfg) (fp : Z) : res Z :=
  let* pi := pi_v c in
  let* ab := fx_abs c fp in
  let* one := fx_of_int c 1 in
  let* m1 := fx_of_int c (-1) in
  let* two := fx_of_int c 2 in
  if fx_gt c ab one then Throw domain_error
  else if fx_eq c fp one then fx_div c pi two
  else if fx_eq c fp m1 then let* np := fx_neg c pi in fx_div c np two
  else
    let* p := fx_mul c fp fp in
    let* d := fx_sub c one p in
    let* s := fx_sqrt c d in
    let* q := fx_div c fp s in
    fx_atan c q.

(** math.hpp:336-349 *)
Definition fx_acos (c : cfg) (fp : Z) : res Z :=
  let* pi := pi_v c in
  let* ab := fx_abs c fp in
  let* one := fx_of_int c 1 in
  let* m1 := fx_of_int c (-1) in
  let* zero := fx_of_int c 0 in
  let* two := fx_of_int c 2 in
  if fx_gt c ab one then Throw domain_error
  else if fx_eq c fp one then Ok zero
  else if fx_eq c fp m1 then Ok pi
  else if fx_eq c fp zero then fx_div c pi two
  else
    let* h := fx_div_int c int32 pi 2 in
    let* a := fx_asin c fp in
    fx_sub c h a.

(** ** cbrt (math.hpp:364-380) *)

(** math.hpp:374-378; [n] is iter_count, of type int *)
Fixpoint cbrt_loop (fuel : nat) (c : cfg) (fp precision iter_max n x : Z) : res Z :=
  let* p := fx_mul c x x in
  let* p := fx_mul c p x in
  let* d := fx_sub c fp p in
  let* a := fx_abs c d in
  if fx_ge c a precision && (n <=? iter_max) then
    match fuel with
    | O => OutOfFuel
    | S k =>
        let* xx := fx_mul c x x in
        let* q := fx_div c fp xx in
        let* x2 := fx_mul_int c int32 x 2 in
        let* s := fx_add c q x2 in
        let* x1 := fx_div_int c int32 s 3 in
        cbrt_loop k c fp precision iter_max (n + 1) x1
    end
  else Ok x.
Definition fx_cbrt (c : cfg) (fp : Z) : res Z :=
  let* a := fx_abs c fp in
  let* eps := fx_epsilon c in
  if fx_lt c a eps then fx_of_int c 0
  else
    let* s := fx_add_int c int32 fp 2 in
    let* x := fx_div_int c int32 s 3 in
    let* ne := nearly_compare_epsilon c in
    let* precision := fx_mul_int c int32 ne 2 in
    cbrt_loop 202 c fp precision 200 0 x.

(** ** Logarithms *)

(** math.hpp:423-427 *)
Fixpoint log2_up (fuel : nat) (c : cfg) (x y : Z) : res (Z * Z) :=
  let t := ct c in
  let p := promote t in
  let* one := c_shl t 1 (cf c) in
  if c_lt t p x one then
    match fuel with
    | O => OutOfFuel
    | S k =>
        let* x1 := c_shl t x 1 in
        let* y1 := c_sub t p y one in
        log2_up k c (wrap t x1) (wrap t y1)
    end
  else Ok (x, y).
(** math.hpp:429-433 *)
Fixpoint log2_down (fuel : nat) (c : cfg) (x y : Z) : res (Z * Z) :=
  let t := ct c in
  let p := promote t in
  let* one := c_shl t 1 (cf c) in
  let* two := c_shl t 2 (cf c) in
  if c_le p t two x then
    match fuel with
    | O => OutOfFuel
    | S k =>
        let* x1 := c_shr t x 1 in
        let* y1 := c_add t p y one in
        log2_down k c (wrap t x1) (wrap t y1)
    end
  else Ok (x, y).
(** math.hpp:436-445, [k] iterations left; z has type I *)
Fixpoint log2_frac (k : nat) (c : cfg) (z y b : Z) : res Z :=
  match k with
  | O => Ok y
  | S k' =>
      let t := ct c in
      let p := promote t in
      let i := ci c in
      let* two := c_shl t 2 (cf c) in
      let* zz := c_mul i i z z in
      let* s := c_shr (promote i) zz (cf c) in
      let z1 := wrap i s in
      let* (z2, y2) :=
        (if c_le p i two z1 then
           let* zh := c_shr i z1 1 in
           let* y1 := c_add t t y b in
           Ok (wrap i zh, wrap t y1)
         else Ok (z1, y)) in
      let* b1 := c_shr t b 1 in
      log2_frac k' c z2 y2 (wrap t b1)
  end.
(** math.hpp:392-448; note that [b] is computed before the domain check and that [1u] is a 32-bit
    operand *)
Definition fx_log2 (c : cfg) (fp : Z) : res Z :=
  let t := ct c in
  let* b0 := c_shl uint32 1 (cf c - 1) in
  let b := wrap t b0 in
  let* zero := fx_of_int c 0 in
  if fx_le c fp zero then Throw domain_error
  else
    let* (x, y) := log2_up 128 c fp 0 in
    let* (x, y) := log2_down 128 c x y in
    let* r := log2_frac (Z.to_nat (cf c)) c (wrap (ci c) x) y b in
    Ok (from_internal_value c r).

(** math.hpp:461-465 *)
Definition log_log2_e (c : cfg) : res Z := from_fixed_num_value c 60 int64 0x171547652B82FE00.
Definition fx_log (c : cfg) (fp : Z) : res Z :=
  let* k := log_log2_e c in
  let* l := fx_log2 c fp in
  fx_div c l k.
(** math.hpp:478-482 *)
Definition log10_log2_10 (c : cfg) : res Z := from_fixed_num_value c 60 int64 0x35269E12F346E200.
Definition fx_log10 (c : cfg) (fp : Z) : res Z :=
  let* k := log10_log2_10 c in
  let* l := fx_log2 c fp in
  fx_div c l k.

(** ** Powers and exponential *)

(** math.hpp:498-502 and 506-510: [for(auto i = b; e != 0; e /= 2, i *= i)]; [dv] selects
    [res /= i] or [res *= i]; E = [t] is the exponent's type *)
Fixpoint pow_loop (fuel : nat) (c : cfg) (t : ity) (dv : bool) (r i e : Z) : res Z :=
  if c_eq t int32 e 0 then Ok r
  else match fuel with
  | O => OutOfFuel
  | S k =>
      let* e2 := c_rem t int32 e 2 in
      let* r1 :=
        (if negb (c_eq (uac t int32) int32 e2 0) then
           (if dv then fx_div_assign c r i else fx_mul_assign c r i)
         else Ok r) in
      let* e1 := c_div t int32 e 2 in
      let* i1 := fx_mul_assign c i i in
      pow_loop k c t dv r1 i1 (wrap t e1)
  end.
(** math.hpp:484-513 *)
Definition fx_pow_int (c : cfg) (t : ity) (b e : Z) : res Z :=
  let* zero := fx_of_int c 0 in
  if fx_eq c b zero then
    (if c_eq t int32 e 0 then fx_of_int c 1 else fx_of_int c 0)
  else
    let* one := fx_of_int c 1 in
    if c_lt t int32 e 0 then pow_loop 130 c t true one b e
    else pow_loop 130 c t false one b e.

(** math.hpp:525-531 the polynomial *)
Definition exp_poly (c : cfg) (x : Z) : res Z :=
  let k v := from_fixed_num_value c 63 int64 v in
  let* a := k 0x01C798ECC0CBC856 in
  let* b := k 0x04745859810836DA in
  let* cc := k 0x15CFBB5C306F85F3 in
  let* d := k 0x3FE26186C531F98E in
  let* e := k 0x40014D4407008BB0 in
  let* f := k 0x7FFFF686446F1B43 in
  let* r := fx_mul c x a in
  let* r := fx_add c b r in
  let* r := fx_mul c x r in
  let* r := fx_add c cc r in
  let* r := fx_mul c x r in
  let* r := fx_add c d r in
  let* r := fx_mul c x r in
  let* r := fx_add c e r in
  let* r := fx_mul c x r in
  fx_add c f r.

(** math.hpp:517-532 *)
Definition exp_expand (c : cfg) (fp : Z) : res Z :=
  let* x_int := integral_part c fp in
  let* fp := fx_sub_assign_int c fp x_int in
  let* ev := e_v c in
  let* p := fx_pow_int c (ct c) ev x_int in
  let* q := exp_poly c fp in
  fx_mul c p q.

(** math.hpp:535-545 *)
Definition fx_exp (c : cfg) (fp : Z) : res Z :=
  let* zero := fx_of_int c 0 in
  if fx_eq c fp zero then fx_of_int c 1
  else if fx_lt c fp zero then
    let* n := fx_neg c fp in
    let* d := exp_expand c n in
    let* one := fx_of_int c 1 in
    fx_div c one d
  else exp_expand c fp.

(** math.hpp:549-565 (declared noexcept, so a domain_error thrown by log ends the program) *)
Definition fx_pow (c : cfg) (b e : Z) : res Z :=
  noexcept (
    let* zero := fx_of_int c 0 in
    if fx_eq c b zero then
      (if fx_eq c e zero then fx_of_int c 1 else fx_of_int c 0)
    else
      let* one := c_shl (ci c) 1 (cf c) in
      let* q := c_div (ct c) (promote (ci c)) e one in
      let e_int := wrap (ct c) q in
      let* e1 := fx_sub_assign_int c e e_int in
      let* p := fx_pow_int c (ct c) b e_int in
      let* l := fx_log c b in
      let* m := fx_mul c e1 l in
      let* x := fx_exp c m in
      fx_mul c p x).

(** ** Remainders, angles, hypot *)

(** math.hpp:567-571 *)
Definition fx_fmod (c : cfg) (a b : Z) : res Z :=
  let* q := fx_div c a b in
  let* fl := fx_floor c q in
  let* p := fx_mul c b fl in
  fx_sub c a p.

(** math.hpp:573-578; result pair (returned value, int_part) *)
Definition fx_modf (c : cfg) (fp : Z) : res (Z * Z) :=
  let* i := fx_floor c fp in
  let* r := fx_sub c fp i in
  Ok (r, i).

(** math.hpp:591-598 *)
Definition fx_degrees (c : cfg) (rad : Z) : res Z :=
  let* pi := pi_v c in
  let* factor := fx_of_int c 180 in
  let* q := fx_div c rad pi in
  fx_mul c q factor.

(** math.hpp:611-618 *)
Definition fx_radians (c : cfg) (deg : Z) : res Z :=
  let* pi := pi_v c in
  let* factor := fx_of_int c 180 in
  let* q := fx_div c deg factor in
  fx_mul c q pi.

(** math.hpp:620-629 *)
Definition fx_hypot (c : cfg) (x y : Z) : res Z :=
  let* a := fx_mul c x x in
  let* b := fx_mul c y y in
  let* s := fx_add c a b in
  fx_sqrt c s.
Definition fx_hypot3 (c : cfg) (x y z : Z) : res Z :=
  let* a := fx_mul c x x in
  let* b := fx_mul c y y in
  let* s := fx_add c a b in
  let* d := fx_mul c z z in
  let* s := fx_add c s d in
  fx_sqrt c s.
