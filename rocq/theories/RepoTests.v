(** The assertions of the project's own test suite (test/main.cpp, test/test_io.cpp), evaluated on the model.
    These are tests of the model, not proofs of properties: every EXPECT_* of the suite with a determined outcome is
    transcribed, in order, and has to hold.  Not transcribed: log output, the random draws (the engines are seeded from
    std::random_device) and the loops of main() that only fill unused variables. *)
From Coq Require Import ZArith Bool List String.
From Verif Require Import Base Fixed TextOut TextIn Math Numbers Format SpecText.
Import ListNotations.
Open Scope Z_scope.

(** ** Literals *)
(** The integer literal 7_f32 calls operator""_f32(unsigned long long) (fixed.hpp:777-780). *)
Definition i32 (n : Z) : res Z := fx_of_int F32 n.
(** The decimal literal 1.14_f32 calls operator""_f32(long double) (fixed.hpp:782-785).  [ld n d] is the 64-bit
    significand nearest to n/10^d with its binary exponent. *)
Definition ld (n d : Z) : Z * Z :=
  let k := 63 - (Z.log2 n - Z.log2 (10 ^ d)) in
  ((n * 2 ^ k + 10 ^ d / 2) / 10 ^ d, k).
Definition d32 (n d : Z) : res Z := let '(s, k) := ld n d in fx_of_float F32 s k.
(** Numeric and string literals of fixed64 go through detail::parse (fixed.hpp:805-821). *)
Definition l64 (s : string) : res Z := literal F64 (txt s) 0.

(** ** The assertion macros *)
Definition eqr (c : cfg) (a b : res Z) : bool := match a, b with Ok x, Ok y => fx_eq c x y | _, _ => false end.
Definition eqi (a : res Z) (n : Z) : bool := match a with Ok x => x =? n | _ => false end.
Definition eqb_ (a : res bool) (b : bool) : bool := match a with Ok x => Bool.eqb x b | _ => false end.
Definition throws (a : res Z) : bool := match a with Throw divide_by_zero => true | _ => false end.
(** expect_fixed_eq (main.cpp:86-117): abs(lhs - rhs) <= eps *)
Definition near_by (c : cfg) (eps a b : res Z) : bool :=
  match (let* x := a in let* y := b in let* e := eps in
         let* d := fx_sub c x y in let* d := fx_abs c d in Ok (negb (fx_gt c d e))) with
  | Ok b => b | _ => false
  end.
Definition near (c : cfg) := near_by c (nearly_compare_epsilon c).
Definition eqt (a : res (list Z)) (s : string) : bool :=
  match a with Ok l => if list_eq_dec Z.eq_dec l (txt s) then true else false | _ => false end.
Definition all (l : list bool) : bool := forallb (fun b => b) l.

(** ** main.cpp *)
Definition neg (c : cfg) (a : res Z) : res Z := let* x := a in fx_neg c x.
Definition un (f : cfg -> Z -> res Z) (c : cfg) (a : res Z) : res Z := let* x := a in f c x.
Definition bi (f : cfg -> Z -> Z -> res Z) (c : cfg) (a b : res Z) : res Z := let* x := a in let* y := b in f c x y.
Definition divi (c : cfg) (a : res Z) (n : Z) : res Z := let* x := a in fx_div_int c int32 x n.
Definition muli (c : cfg) (a : res Z) (n : Z) : res Z := let* x := a in fx_mul_int c int32 x n.

(** FixedNum.Construct *)
Example t_construct : all [
  eqi (let* x := i32 0 in fx_to_int F32 int32 x) 0;
  eqr F32 (let* r := io_parse (txt "-114.514a" ++ [0]) 8 0 in Ok (snd r)) (neg F32 (d32 114514 3));
  eqi (let* x := l64 "0" in fx_to_int F64 int32 x) 0;
  eqr F64 (l64 "-114.514") (neg F64 (l64 "114.514"))] = true.
Proof. vm_compute. reflexivity. Qed.

(** Fixed32.Operator *)
Example t_operator32 : all [
  eqr F32 (let* x := i32 0 in let* r := fx_preinc F32 x in Ok (fst r)) (i32 1);
  eqr F32 (bi fx_add F32 (d32 114 2) (d32 514 2)) (d32 628 2);
  eqr F32 (muli F32 (d32 114 2) 2) (d32 228 2);
  eqr F32 (divi F32 (i32 514) 2) (i32 257);
  eqr F32 (let* x := i32 514 in fx_divide_int F32 int32 x 2) (i32 257);
  eqr F32 (bi fx_rem F32 (i32 515) (i32 2)) (i32 1);
  eqr F32 (let* x := d32 114 2 in let* r := fx_predec F32 x in Ok (fst r)) (d32 14 2);
  throws (let* x := i32 257 in fx_divide_int F32 int32 x 0)] = true.
Proof. vm_compute. reflexivity. Qed.

(** Fixed32.Rounding *)
Example t_rounding32 : all [
  eqr F32 (un fx_round F32 (d32 114414 3)) (i32 114);
  eqr F32 (un fx_round F32 (d32 114514 3)) (i32 115);
  eqr F32 (un fx_round F32 (neg F32 (d32 114414 3))) (neg F32 (i32 114));
  eqr F32 (un fx_round F32 (neg F32 (d32 114514 3))) (neg F32 (i32 115))] = true.
Proof. vm_compute. reflexivity. Qed.

(** Fixed32.Decompression *)
Example t_decompression32 : all [
  eqb_ (let* x := i32 0 in fx_signbit F32 x) false;
  eqb_ (let* x := i32 1 in fx_signbit F32 x) false;
  eqb_ (let* x := neg F32 (i32 1) in fx_signbit F32 x) true;
  eqi (un raw_integral_part F32 (i32 1)) 1;
  eqi (un raw_integral_part F32 (neg F32 (i32 1))) 32767;
  eqi (un integral_part F32 (i32 1)) 1;
  eqi (un integral_part F32 (neg F32 (i32 1))) 1;
  eqi (un fractional_part F32 (i32 1)) 0;
  eqi (un fractional_part F32 (neg F32 (i32 1))) 0;
  eqi (un integral_part F32 (divi F32 (i32 1) 2)) 0;
  eqi (un fractional_part F32 (divi F32 (i32 1) 2)) (2 ^ 15)] = true.
Proof. vm_compute. reflexivity. Qed.

(** Fixed32.Math *)
Definition arc32 := near_by F32 (d32 3 4).
Example t_math32 : all [
  eqr F32 (un fx_abs F32 (neg F32 (d32 114514 3))) (d32 114514 3);
  eqr F32 (un fx_sin F32 (i32 0)) (i32 0);
  near F32 (un fx_sin F32 (i32 1)) (d32 841471 6);
  near F32 (un fx_sin F32 (divi F32 (fx_pi F32) 6)) (d32 5 1);
  eqr F32 (un fx_cos F32 (i32 0)) (i32 1);
  near F32 (un fx_cos F32 (divi F32 (fx_pi F32) 3)) (d32 5 1);
  near F32 (un fx_cos F32 (i32 1)) (d32 540302 6);
  eqr F32 (un fx_tan F32 (i32 0)) (i32 0);
  near F32 (un fx_tan F32 (i32 1)) (d32 1557407 6);
  arc32 (un fx_atan F32 (i32 0)) (i32 0);
  arc32 (un fx_atan F32 (divi F32 (fx_pi F32) 6)) (d32 482348 6);
  arc32 (un fx_atan F32 (i32 1)) (d32 785398 6);
  arc32 (un fx_asin F32 (i32 0)) (i32 0);
  arc32 (un fx_asin F32 (d32 5 1)) (d32 523598 6);
  arc32 (un fx_acos F32 (i32 0)) (d32 1570796 6);
  arc32 (un fx_acos F32 (d32 5 1)) (d32 1047197 6);
  eqr F32 (un fx_sqrt F32 (i32 0)) (i32 0);
  eqr F32 (un fx_sqrt F32 (i32 4)) (i32 2);
  eqr F32 (un fx_sqrt F32 (d32 114514 3)) (d32 10701121 6);
  near F32 (un fx_cbrt F32 (i32 0)) (i32 0);
  eqr F32 (un fx_cbrt F32 (i32 1)) (i32 1);
  eqr F32 (un fx_cbrt F32 (i32 8)) (i32 2);
  eqr F32 (un fx_cbrt F32 (i32 27)) (i32 3);
  eqr F32 (un fx_log2 F32 (i32 2)) (i32 1);
  eqr F32 (un fx_log2 F32 (i32 10)) (d32 3321928 6);
  near F32 (un fx_log F32 (fx_e F32)) (i32 1);
  near F32 (un fx_log F32 (d32 114514 3)) (d32 4740697 6);
  near F32 (un fx_log10 F32 (i32 10)) (i32 1);
  near F32 (un fx_log10 F32 (d32 114514 3)) (d32 2058859 6);
  near F32 (un fx_exp F32 (i32 1)) (fx_e F32);
  near F32 (un fx_radians F32 (i32 180)) (pi_v F32);
  near F32 (un fx_degrees F32 (pi_v F32)) (i32 180)] = true.
Proof. vm_compute. reflexivity. Qed.

(** Fixed64.Operator *)
Example t_operator64 : all [
  eqr F64 (let* x := l64 "0" in let* r := fx_preinc F64 x in Ok (fst r)) (l64 "1");
  eqr F64 (bi fx_add F64 (l64 "1.14") (l64 "5.14")) (l64 "6.28");
  eqr F64 (muli F64 (l64 "1.14") 2) (l64 "2.28");
  eqr F64 (divi F64 (l64 "514") 2) (l64 "257");
  eqr F64 (let* x := l64 "514" in fx_divide_int F64 int32 x 2) (l64 "257");
  eqr F64 (bi fx_rem F64 (l64 "515") (l64 "2")) (l64 "1");
  eqr F64 (let* x := l64 "1.14" in let* r := fx_predec F64 x in Ok (fst r)) (l64 "0.14");
  throws (let* x := l64 "257" in fx_divide_int F64 int32 x 0)] = true.
Proof. vm_compute. reflexivity. Qed.

(** Fixed64.Rounding *)
Example t_rounding64 : all [
  eqr F64 (un fx_round F64 (l64 "114.414")) (l64 "114");
  eqr F64 (un fx_round F64 (l64 "114.514")) (l64 "115");
  eqr F64 (un fx_round F64 (neg F64 (l64 "114.414"))) (neg F64 (l64 "114"));
  eqr F64 (un fx_round F64 (neg F64 (l64 "114.514"))) (neg F64 (l64 "115"))] = true.
Proof. vm_compute. reflexivity. Qed.

(** Fixed64.Decompression *)
Example t_decompression64 : all [
  eqb_ (let* x := l64 "0" in fx_signbit F64 x) false;
  eqb_ (let* x := l64 "1" in fx_signbit F64 x) false;
  eqb_ (let* x := neg F64 (l64 "1") in fx_signbit F64 x) true;
  eqi (un raw_integral_part F64 (l64 "1")) 1;
  eqi (un raw_integral_part F64 (neg F64 (l64 "1"))) 2147483647;
  eqi (un integral_part F64 (l64 "1")) 1;
  eqi (un integral_part F64 (neg F64 (l64 "1"))) 1;
  eqi (un fractional_part F64 (l64 "1")) 0;
  eqi (un fractional_part F64 (neg F64 (l64 "1"))) 0;
  eqi (un integral_part F64 (divi F64 (l64 "1") 2)) 0;
  eqi (un fractional_part F64 (divi F64 (l64 "1") 2)) (2 ^ 31)] = true.
Proof. vm_compute. reflexivity. Qed.

(** Fixed64.Math *)
Definition arc64 := near_by F64 (l64 "0.0003").
Example t_math64 : all [
  eqr F64 (un fx_abs F64 (neg F64 (l64 "114.514"))) (l64 "114.514");
  eqr F64 (un fx_sin F64 (l64 "0")) (l64 "0");
  near F64 (un fx_sin F64 (l64 "1")) (l64 "0.841471");
  near F64 (un fx_sin F64 (divi F64 (fx_pi F64) 6)) (l64 "0.5");
  near F64 (un fx_cos F64 (l64 "0")) (l64 "1");
  near F64 (un fx_cos F64 (divi F64 (fx_pi F64) 3)) (l64 "0.5");
  near F64 (un fx_cos F64 (l64 "1")) (l64 "0.540302");
  eqr F64 (un fx_tan F64 (l64 "0")) (l64 "0");
  near F64 (un fx_tan F64 (l64 "1")) (l64 "1.557407");
  arc64 (un fx_atan F64 (l64 "0")) (l64 "0");
  arc64 (un fx_atan F64 (divi F64 (fx_pi F64) 6)) (l64 "0.482348");
  arc64 (un fx_atan F64 (l64 "1")) (l64 "0.785398");
  arc64 (un fx_asin F64 (l64 "0")) (l64 "0");
  arc64 (un fx_asin F64 (l64 "0.5")) (l64 "0.523598");
  arc64 (un fx_acos F64 (l64 "0")) (l64 "1.570796");
  arc64 (un fx_acos F64 (l64 "0.5")) (l64 "1.047197");
  near F64 (un fx_sqrt F64 (l64 "0")) (l64 "0");
  near F64 (un fx_sqrt F64 (l64 "4")) (l64 "2");
  near F64 (un fx_sqrt F64 (l64 "114.514")) (l64 "10.701121");
  near F64 (un fx_cbrt F64 (l64 "0")) (l64 "0");
  near F64 (un fx_cbrt F64 (l64 "1")) (l64 "1");
  near F64 (un fx_cbrt F64 (l64 "8")) (l64 "2");
  near F64 (un fx_cbrt F64 (l64 "27")) (l64 "3");
  near F64 (un fx_log2 F64 (l64 "2")) (l64 "1");
  near F64 (un fx_log2 F64 (l64 "10")) (l64 "3.321928");
  near F64 (un fx_log F64 (fx_e F64)) (l64 "1");
  near F64 (un fx_log F64 (l64 "114.514")) (l64 "4.740697");
  near F64 (un fx_log10 F64 (l64 "10")) (l64 "1");
  near F64 (un fx_log10 F64 (l64 "114.514")) (l64 "2.058859");
  near F64 (un fx_exp F64 (l64 "1")) (fx_e F64);
  eqr F64 (un fx_radians F64 (l64 "180")) (pi_v F64);
  eqr F64 (un fx_degrees F64 (pi_v F64)) (l64 "180");
  eqr F64 (un fx_radians F64 (l64 "90")) (divi F64 (pi_v F64) 2);
  eqr F64 (un fx_degrees F64 (divi F64 (pi_v F64) 2)) (l64 "90")] = true.
Proof. vm_compute. reflexivity. Qed.

(** ** test_io.cpp *)
Definition fmt (spec : string) (a : res Z) : res (list Z) :=
  let* x := a in let* r := format_field F32 x (txt spec) in Ok (fst r).
Example t_format : all [
  eqt (fmt "?}" (i32 0)) "0";
  eqt (fmt "#?}" (neg F32 (i32 1))) "-0x10000";
  eqt (fmt "d}" (i32 0)) "0";
  eqt (fmt "d}" (neg F32 (i32 1))) "-1";
  eqt (fmt "}" (i32 0)) "0";
  eqt (fmt "}" (i32 1)) "1";
  eqt (fmt "#04x}" (i32 15)) "0x0f";
  eqt (fmt "#04X}" (i32 15)) "0X0F";
  eqt (fmt "}" (divi F32 (i32 1) 2)) "0.5";
  eqt (fmt "g}" (divi F32 (i32 1) 2)) "0.5";
  eqt (fmt "f}" (divi F32 (i32 1) 2)) "0.500000";
  eqt (fmt ".2f}" (divi F32 (i32 1) 2)) "0.50";
  eqt (fmt "d}" (fx_pi F32)) "3";
  eqt (fmt ".2g}" (fx_pi F32)) "3.14";
  eqt (fmt ".2f}" (fx_pi F32)) "3.14";
  eqt (fmt ".4f}" (fx_pi F32)) "3.1415"] = true.
Proof. vm_compute. reflexivity. Qed.

(** Fixed32.OStream, and the two values main() prints (main.cpp:329-330) *)
Example t_ostream : all [
  eqt (let* x := i32 0 in stream_out F32 false true false false x) "0";
  eqt (let* x := d32 1145625 4 in stream_out F32 false true false false x) "114.5625";
  eqt (let* x := neg F32 (d32 1145625 4) in stream_out F32 false true false false x) "-114.5625"] = true.
Proof. vm_compute. reflexivity. Qed.
