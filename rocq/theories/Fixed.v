(** Model of include/eirin/fixed.hpp: the fixed_num class template (operators, conversions).
    No proofs in this file. *)
From Coq Require Import ZArith Bool List QArith.
From Verif Require Import Base.
Open Scope Z_scope.

(** Template parameters of fixed_num: Type, IntermediateType, fraction, rounding
    (fixed.hpp:119-121). *)
Record cfg := { ct : ity; ci : ity; cf : Z; cr : bool }.

(** The concept fixed_num_check (fixed.hpp:94-104): integral store type, 0 < fraction <= width-1,
    intermediate type strictly larger (hence at least twice as wide, as all widths are powers of
    two), same signedness.  The class-type intermediate (MSVC int128) is not modelled. *)
Definition wf (c : cfg) : bool :=
  ((bits (ct c) =? 8) || (bits (ct c) =? 16) || (bits (ct c) =? 32) || (bits (ct c) =? 64))
  && ity_ok (ci c) && (bits (ct c) <? bits (ci c))
  && Bool.eqb (sgn (ci c)) (sgn (ct c))
  && (1 <=? cf c) && (cf c <=? bits (ct c) - 1).

(** The predefined types (fixed.hpp:754-768): fixed32 and fixed64. *)
Definition F32 : cfg := {| ct := int32; ci := int64; cf := 16; cr := false |}.
Definition F64 : cfg := {| ct := int64; ci := int128; cf := 32; cr := false |}.

(** A fixed_num object is its m_value; [valid] says it is a value of the store type. *)
Definition valid (c : cfg) (m : Z) : bool := in_range (ct c) m.

(** type of expressions [static_cast<Intermediate>(m_value) op m_value] *)
Definition it (c : cfg) : ity := uac (ci c) (ct c).

(** fixed.hpp:132  IntermediateType(1) << fraction, converted back to IntermediateType *)
Definition fraction_multiplier (c : cfg) : res Z :=
  let* v := c_shl (ci c) 1 (cf c) in Ok (wrap (ci c) v).

(** fixed.hpp:153-155  explicit fixed_num(std::integral val) *)
Definition fx_of_int (c : cfg) (n : Z) : res Z :=
  let* v := c_shl (ct c) (wrap (ct c) n) (cf c) in Ok (wrap (ct c) v).

(** fixed.hpp:157-183  explicit fixed_num(std::floating_point val), non-class intermediate branch.
    The argument is the dyadic rational n/2^k; the floating product with a power of two is exact.
    Simplified: the subtraction [- 0.5] is done exactly; Float.v models its rounding, NaN and infinities. *)
Definition float_to_int (t : ity) (n d : Z) : res Z :=
  let r := Z.quot n d in if in_range t r then Ok r else UB.
Definition fx_of_float (c : cfg) (n k : Z) : res Z :=
  if cr c then
    if 0 <=? n then float_to_int (ct c) (n * 2 ^ cf c) (2 ^ k * 2)
    else float_to_int (ct c) (2 * (n * 2 ^ cf c) - 2 ^ k) (2 ^ k * 2)
  else float_to_int (ct c) (n * 2 ^ cf c) (2 ^ k).

(** fixed.hpp:489-494 (narrowing, _fraction > fraction) and 496-501 (widening).
    [t] is the deduced type T of the raw argument, [f0] the template argument _fraction. *)
Definition from_fixed_num_value (c : cfg) (f0 : Z) (t : ity) (v : Z) : res Z :=
  if f0 >? cf c then
    let* d := c_shl t 1 (f0 - cf c) in
    let* q := c_div t (promote t) v d in
    if cr c then
      let* d2 := c_shl t 1 (f0 - cf c - 1) in
      let* q2 := c_div t (promote t) v d2 in
      let* r2 := c_rem (promote t) int32 q2 2 in
      let* s := c_add (promote t) (promote t) q r2 in
      Ok (wrap (ct c) s)
    else Ok (wrap (ct c) q)
  else
    let* d := c_shl t 1 (cf c - f0) in
    let* p := c_mul t (promote t) v d in
    Ok (wrap (ct c) p).

(** fixed.hpp:185-188  explicit fixed_num(fixed_num<T,I,f,r>) *)
Definition fx_of_fixed (c src : cfg) (m : Z) : res Z :=
  from_fixed_num_value c (cf src) (ct src) m.

(** fixed.hpp:503-506 *)
Definition from_internal_value (c : cfg) (v : Z) : Z := v.

(** fixed.hpp:201-242 constants (arguments are long long literals) *)
Definition fx_epsilon (c : cfg) := from_fixed_num_value c 64 int64 0x5000000000000.
Definition fx_e (c : cfg) := from_fixed_num_value c 61 int64 0x56FC2A2C515DA54D.
Definition fx_pi (c : cfg) := from_fixed_num_value c 61 int64 0x6487ED5110B4611A.
Definition fx_pi_2 (c : cfg) := from_fixed_num_value c 62 int64 0x6487ED5110B4611A.
Definition fx_pi_4 (c : cfg) := from_fixed_num_value c 63 int64 0x6487ED5110B4611A.
Definition fx_double_pi (c : cfg) := from_fixed_num_value c 60 int64 0x6487ED5110B4611A.
Definition nearly_compare_epsilon (c : cfg) := from_fixed_num_value c 64 int64 0x5000000000000.

(** fixed.hpp:244-247 *)
Definition signbit_mask (c : cfg) : res Z :=
  let* v := c_shl (ct c) 1 (bits (ct c) - 1) in Ok (wrap (ct c) v).

(** fixed.hpp:249-255 *)
Definition fx_signbit (c : cfg) (m : Z) : res bool :=
  if sgn (ct c) then
    let* k := signbit_mask c in
    Ok (negb (c_and (ct c) (ct c) m k =? 0))
  else Ok false.

(** fixed.hpp:257-263 *)
Definition raw_integral_part (c : cfg) (m : Z) : res Z :=
  let* k := signbit_mask c in
  let r := wrap (ct c) (c_and (ct c) (promote (ct c)) m (c_not (ct c) k)) in
  let* s := c_shr (ct c) r (cf c) in
  Ok (wrap (ct c) s).

(** fixed.hpp:265-276 *)
Definition integral_part (c : cfg) (m : Z) : res Z :=
  let* s := fx_signbit c m in
  let* r :=
    (if s then
       let r0 := wrap (ct c) (c_not (ct c) m) in
       let* one := c_shl (ct c) 1 (cf c) in
       let* r1 := c_add (ct c) (promote (ct c)) r0 one in
       Ok (wrap (ct c) r1)
     else Ok m) in
  let* q := c_shr (ct c) r (cf c) in
  Ok (wrap (ct c) q).

(** fixed.hpp:278-281 *)
Definition fractional_part (c : cfg) (m : Z) : res Z :=
  let* one := c_shl (ct c) 1 (cf c) in
  let* r := c_rem (ct c) (promote (ct c)) m one in
  Ok (wrap (ct c) r).

(** fixed.hpp:287-291 explicit operator T() for integral T = [t] (bool excluded) *)
Definition fx_to_int (c : cfg) (t : ity) (m : Z) : res Z :=
  let* v := c_shr (ct c) m (cf c) in Ok (wrap t v).

(** fixed.hpp:293-299 explicit operator T() for floating T; the result is the integer that is
    then converted to floating point (that last conversion is in Float.v). *)
Definition fx_to_float (c : cfg) (m : Z) : res Z :=
  let* d := fraction_multiplier c in
  let* q := c_div (ct c) (ci c) m d in Ok (wrap (ct c) q).

(** fixed.hpp:301-304, 306-310 *)
Definition fx_add (c : cfg) (x y : Z) : res Z :=
  let* r := c_add (ct c) (ct c) x y in Ok (wrap (ct c) r).
Definition fx_add_assign (c : cfg) (x y : Z) : res Z :=
  let* r := c_add (ct c) (ct c) x y in Ok (wrap (ct c) r).
(** fixed.hpp:312-316 (integral operand); the right operand [static_cast<Type>(val) << fraction]
    has the promoted store type *)
Definition fx_add_assign_int (c : cfg) (x n : Z) : res Z :=
  let* v := c_shl (ct c) (wrap (ct c) n) (cf c) in
  let* r := c_add (ct c) (promote (ct c)) x v in Ok (wrap (ct c) r).
(** fixed.hpp:318-334 *)
Definition fx_sub (c : cfg) (x y : Z) : res Z :=
  let* r := c_sub (ct c) (ct c) x y in Ok (wrap (ct c) r).
Definition fx_sub_assign (c : cfg) (x y : Z) : res Z :=
  let* r := c_sub (ct c) (ct c) x y in Ok (wrap (ct c) r).
Definition fx_sub_assign_int (c : cfg) (x n : Z) : res Z :=
  let* v := c_shl (ct c) (wrap (ct c) n) (cf c) in
  let* r := c_sub (ct c) (promote (ct c)) x v in Ok (wrap (ct c) r).

(** [static_cast<Type>(_value + (_value % 2))], shared text of the rounding branches
    (fixed.hpp:341, 354, 377, 390, 623, 646) *)
Definition round_tail (c : cfg) (v : Z) : res Z :=
  let* r := c_rem (it c) int32 v 2 in
  let* s := c_add (it c) (it c) v r in
  Ok (wrap (ct c) s).

(** fixed.hpp:336-347 operator* *)
Definition fx_mul (c : cfg) (x y : Z) : res Z :=
  if cr c then
    let* p := c_mul (ci c) (ct c) (wrap (ci c) x) y in
    let* fm := fraction_multiplier c in
    let* h := c_div (ci c) int32 fm 2 in
    let* v := c_div (it c) (promote (ci c)) p h in
    round_tail c v
  else
    let* p := c_mul (ci c) (ct c) (wrap (ci c) x) y in
    let* v := c_shr (it c) p (cf c) in
    Ok (wrap (ct c) v).
(** fixed.hpp:349-362 operator*= *)
Definition fx_mul_assign (c : cfg) (x y : Z) : res Z :=
  if cr c then
    let* p := c_mul (ci c) (ct c) (wrap (ci c) x) y in
    let* fm := fraction_multiplier c in
    let* h := c_div (ci c) int32 fm 2 in
    let* v := c_div (it c) (promote (ci c)) p h in
    round_tail c v
  else
    let* p := c_mul (ci c) (ct c) (wrap (ci c) x) y in
    let* v := c_shr (it c) p (cf c) in
    Ok (wrap (ct c) v).
(** fixed.hpp:364-368 operator*=(integral); [t] is the type of the operand *)
Definition fx_mul_assign_int (c : cfg) (t : ity) (x n : Z) : res Z :=
  let* p := c_mul (ct c) t x n in Ok (wrap (ct c) p).

(** fixed.hpp:370-381 operator/ *)
Definition fx_div (c : cfg) (x y : Z) : res Z :=
  if cr c then
    let* s := c_shl (ci c) (wrap (ci c) x) (cf c) in
    let* d := c_mul (promote (ci c)) int32 s 2 in
    let* v := c_div (promote (ci c)) (ct c) d y in
    round_tail c v
  else
    let* s := c_shl (ci c) (wrap (ci c) x) (cf c) in
    let* v := c_div (promote (ci c)) (ct c) s y in
    Ok (wrap (ct c) v).
(** fixed.hpp:383-395 operator/= *)
Definition fx_div_assign (c : cfg) (x y : Z) : res Z :=
  if cr c then
    let* s := c_shl (ci c) (wrap (ci c) x) (cf c) in
    let* d := c_mul (promote (ci c)) int32 s 2 in
    let* v := c_div (promote (ci c)) (ct c) d y in
    round_tail c v
  else
    let* s := c_shl (ci c) (wrap (ci c) x) (cf c) in
    let* v := c_div (promote (ci c)) (ct c) s y in
    Ok (wrap (ct c) v).
(** fixed.hpp:397-401 operator/=(integral) *)
Definition fx_div_assign_int (c : cfg) (t : ity) (x n : Z) : res Z :=
  let* p := c_div (ct c) t x n in Ok (wrap (ct c) p).

(** fixed.hpp:403-412 *)
Definition fx_rem (c : cfg) (x y : Z) : res Z :=
  let* r := c_rem (ct c) (ct c) x y in Ok (wrap (ct c) r).
Definition fx_rem_assign (c : cfg) (x y : Z) : res Z :=
  let* r := c_rem (ct c) (ct c) x y in Ok (wrap (ct c) r).

(** fixed.hpp:414-417 unary minus *)
Definition fx_neg (c : cfg) (x : Z) : res Z :=
  let* r := c_neg (ct c) x in Ok (wrap (ct c) r).

(** fixed.hpp:419-443; result pair is (value of the expression, new value of the object) *)
Definition fx_preinc (c : cfg) (x : Z) : res (Z * Z) :=
  let* one := c_shl (ct c) 1 (cf c) in
  let* r := c_add (ct c) (promote (ct c)) x one in
  Ok (wrap (ct c) r, wrap (ct c) r).
Definition fx_postinc (c : cfg) (x : Z) : res (Z * Z) :=
  let* one := c_shl (ct c) 1 (cf c) in
  let* r := c_add (ct c) (promote (ct c)) x one in
  Ok (x, wrap (ct c) r).
Definition fx_predec (c : cfg) (x : Z) : res (Z * Z) :=
  let* one := c_shl (ct c) 1 (cf c) in
  let* r := c_sub (ct c) (promote (ct c)) x one in
  Ok (wrap (ct c) r, wrap (ct c) r).
Definition fx_postdec (c : cfg) (x : Z) : res (Z * Z) :=
  let* one := c_shl (ct c) 1 (cf c) in
  let* r := c_sub (ct c) (promote (ct c)) x one in
  Ok (x, wrap (ct c) r).

(** fixed.hpp:445 defaulted operator== and 447-450 operator<=> (comparison of m_value) *)
Definition fx_eq (c : cfg) (x y : Z) : bool := c_eq (ct c) (ct c) x y.
Definition fx_cmp (c : cfg) (x y : Z) : comparison :=
  let t := uac (ct c) (ct c) in Z.compare (wrap t x) (wrap t y).
Definition fx_lt (c : cfg) (x y : Z) : bool := match fx_cmp c x y with Lt => true | _ => false end.
Definition fx_le (c : cfg) (x y : Z) : bool := match fx_cmp c x y with Gt => false | _ => true end.
Definition fx_gt (c : cfg) (x y : Z) : bool := match fx_cmp c x y with Gt => true | _ => false end.
Definition fx_ge (c : cfg) (x y : Z) : bool := match fx_cmp c x y with Lt => false | _ => true end.

(** fixed.hpp:454-487 nearly_*; [auto div = m_value - other.m_value] has type promote Type, and
    [-nearly_compare_epsilon().m_value] too *)
Definition nearly_eq (c : cfg) (x y : Z) : res bool :=
  let p := promote (ct c) in
  let* d := c_sub (ct c) (ct c) x y in
  let* e := nearly_compare_epsilon c in
  let* ne := c_neg (ct c) e in
  Ok (c_le p p ne d && c_le p (ct c) d e).
Definition nearly_ne (c : cfg) (x y : Z) : res bool :=
  let p := promote (ct c) in
  let* d := c_sub (ct c) (ct c) x y in
  let* e := nearly_compare_epsilon c in
  let* ne := c_neg (ct c) e in
  Ok (c_lt p p d ne || c_lt (ct c) p e d).
Definition nearly_gt (c : cfg) (x y : Z) : res bool :=
  let p := promote (ct c) in
  let* d := c_sub (ct c) (ct c) x y in
  let* e := nearly_compare_epsilon c in
  Ok (c_lt (ct c) p e d).
Definition nearly_lt (c : cfg) (x y : Z) : res bool :=
  let p := promote (ct c) in
  let* d := c_sub (ct c) (ct c) x y in
  let* e := nearly_compare_epsilon c in
  let* ne := c_neg (ct c) e in
  Ok (c_lt p p d ne).
Definition nearly_gt_eq (c : cfg) (x y : Z) : res bool :=
  let* b := nearly_lt c x y in Ok (negb b).
Definition nearly_lt_eq (c : cfg) (x y : Z) : res bool :=
  let* b := nearly_gt c x y in Ok (negb b).

(** fixed.hpp:604-652 divide / divide_by.  For divide_by the result is the new object value; on a
    throw nothing has been written. *)
Definition fx_divide_int (c : cfg) (t : ity) (x n : Z) : res Z :=
  if c_eq t int32 n 0 then Throw divide_by_zero
  else let* q := c_div (ct c) t x n in Ok (wrap (ct c) q).
Definition fx_divide (c : cfg) (x y : Z) : res Z :=
  if c_eq (ct c) int32 y 0 then Throw divide_by_zero
  else if cr c then
    let* s := c_shl (ci c) (wrap (ci c) x) (cf c) in
    let* d := c_mul (promote (ci c)) int32 s 2 in
    let* v := c_div (promote (ci c)) (ct c) d y in
    round_tail c v
  else
    let* s := c_shl (ci c) (wrap (ci c) x) (cf c) in
    let* v := c_div (promote (ci c)) (ct c) s y in
    Ok (wrap (ct c) v).
Definition fx_divide_by_int (c : cfg) (t : ity) (x n : Z) : res Z :=
  if c_eq t int32 n 0 then Throw divide_by_zero
  else let* q := c_div (ct c) t x n in Ok (wrap (ct c) q).
Definition fx_divide_by (c : cfg) (x y : Z) : res Z :=
  if c_eq (ct c) int32 y 0 then Throw divide_by_zero
  else if cr c then
    let* s := c_shl (ci c) (wrap (ci c) x) (cf c) in
    let* d := c_mul (promote (ci c)) int32 s 2 in
    let* v := c_div (promote (ci c)) (ct c) d y in
    round_tail c v
  else
    let* s := c_shl (ci c) (wrap (ci c) x) (cf c) in
    let* v := c_div (promote (ci c)) (ct c) s y in
    Ok (wrap (ct c) v).

(** fixed.hpp:824-882 free operators with an integral operand of type [t] *)
Definition fx_add_int (c : cfg) (t : ity) (x n : Z) : res Z := fx_add_assign_int c x n.
Definition int_add_fx (c : cfg) (t : ity) (n x : Z) : res Z := fx_add_assign_int c x n.
Definition fx_sub_int (c : cfg) (t : ity) (x n : Z) : res Z := fx_sub_assign_int c x n.
Definition int_sub_fx (c : cfg) (t : ity) (n x : Z) : res Z :=
  let* v := fx_of_int c n in fx_sub_assign c v x.
Definition fx_mul_int (c : cfg) (t : ity) (x n : Z) : res Z := fx_mul_assign_int c t x n.
Definition int_mul_fx (c : cfg) (t : ity) (n x : Z) : res Z := fx_mul_assign_int c t x n.
Definition fx_div_int (c : cfg) (t : ity) (x n : Z) : res Z := fx_div_assign_int c t x n.
Definition int_div_fx (c : cfg) (t : ity) (n x : Z) : res Z :=
  let* v := fx_of_int c n in fx_div_assign c v x.
(** fixed.hpp:872-876 [fixed % integral] does not compile (operator%= only takes a fixed_num and
    the conversion is explicit); 878-882: *)
Definition int_rem_fx (c : cfg) (t : ity) (n x : Z) : res Z :=
  let* v := fx_of_int c n in fx_rem_assign c v x.

(** fixed.hpp:1100-1108 fixed_hash, relative to the standard library's std::hash<Type> *)
Definition fx_hash (std_hash : Z -> Z) (m : Z) : Z := std_hash m.

(** fixed.hpp:1111-1201 numeric_limits (std::numeric_limits<T> is specialised for every store
    type in the model, so the first branch of min()/max() is taken) *)
Definition nl_min (c : cfg) : Z := from_internal_value c (minv (ct c)).
Definition nl_max (c : cfg) : Z := from_internal_value c (maxv (ct c)).
Definition nl_lowest (c : cfg) : Z := nl_min c.
Definition nl_is_signed (c : cfg) : bool := true.
Definition nl_epsilon (c : cfg) : res Z := fx_epsilon c.
Inductive float_round_style := round_toward_zero | round_to_nearest | round_toward_neg_infinity.
Definition nl_round_style (c : cfg) : float_round_style := round_toward_zero.
Definition nl_digits (c : cfg) : res Z := fx_of_int c (bits (ct c) - 1).
Definition nl_radix (c : cfg) : res Z := fx_of_int c 2.
Definition nl_digits10 (c : cfg) : res Z := fx_of_int c (wrap (ct c) ((bits (ct c) - 1) * 643 / 2136)).
