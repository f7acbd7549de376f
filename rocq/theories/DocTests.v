(** The code samples of README.md and docs/*.rst, evaluated on the model.  Like RepoTests.v these are tests, not proofs.  Samples whose
    outcome contradicts the documentation are marked. *)
From Coq Require Import ZArith Bool List String.
From Verif Require Import Base Fixed TextOut TextIn Math Numbers Format SpecText RepoTests.
Import ListNotations.
Open Scope Z_scope.

(** [std::cout << x] with default flags; [std::format] with one replacement field whose text after the opening brace is [s] *)
Definition out (c : cfg) (a : res Z) : res (list Z) := let* x := a in stream_out c false true false false x.
Definition fmt (c : cfg) (a : res Z) (s : string) : res (list Z) := let* x := a in let* r := format_field c x (txt s) in Ok (fst r).
Definition F20 : cfg := {| ct := int32; ci := int64; cf := 20; cr := false |}.
Definition F10 : cfg := {| ct := int32; ci := int64; cf := 10; cr := false |}.
Definition lit32 (s : string) : res Z := literal F32 (txt s) 0.

(** docs/basic.rst, "Construct with Integral or Floating Types"; 123.45f = 16180838/2^17, 114.514f = 15009579/2^17.
    CONTRADICTION: 12345 does not fit the 11 integer bits of the first type, so 57 is printed. *)
Example d_construct :
  eqt (out F20 (fx_of_int F20 12345)) "57" = true /\
  eqt (out F20 (fx_of_float F20 16180838 17)) "123.4499969482421875" = true /\
  eqt (out F32 (fx_of_int F32 514)) "514" = true /\
  eqt (out F64 (fx_of_float F64 15009579 17)) "114.51399993896484375" = true.
Proof. vm_compute. repeat split. Qed.
(** "Literal" *)
Example d_literal :
  eqt (out F32 (lit32 "123.45")) "123.4499969482421875" = true /\
  eqt (out F64 (l64 "123.45")) "123.44999999995343387126922607421875" = true.
Proof. vm_compute. repeat split. Qed.
(** "Construct from Another Fixed Point Number".  CONTRADICTION: the conversion to fixed64 is undefined behaviour (C06). *)
Example d_convert : (let* x := lit32 "123.45" in fx_of_fixed F64 F32 x) = UB.
Proof. vm_compute. reflexivity. Qed.
(** "Convert from Integer or Floating Point Types" *)
Example d_casts :
  eqt (out F32 (fx_of_int F32 12345)) "12345" = true /\ eqt (out F32 (fx_of_float F32 16180838 17)) "123.4499969482421875" = true /\
  eqt (out F10 (fx_of_float F10 16180838 17)) "123.44921875" = true /\ eqt (out F10 (fx_of_int F10 12345)) "12345" = true.
Proof. vm_compute. repeat split. Qed.
(** "Create From String" *)
Example d_cstring : fixed_from_cstring F32 (txt "123.45") 0 = Ok (true, 8090419) /\ fixed_from_cstring F64 (txt "-123.45") 0 = Ok (true, -530213712691).
Proof. vm_compute. repeat split. Qed.
(** docs/operators.rst *)
Example d_operators :
  let a := lit32 "123.45" in let b := lit32 "678.90" in
  eqt (out F32 (bi fx_add F32 a b)) "802.3499908447265625" = true /\ eqt (out F32 (bi fx_sub F32 a b)) "-555.4499969482421875" = true /\
  eqt (out F32 (muli F32 a 10)) "1234.499969482421875" = true /\ eqt (out F32 (let* x := b in int_mul_fx F32 int32 10 x)) "6788.99993896484375" = true /\
  eqt (out F32 (divi F32 a 10)) "12.3449859619140625" = true.
Proof. vm_compute. repeat split. Qed.
(** "Cast Operators".  CONTRADICTION: the cast to float drops the fraction (C03). *)
Example d_cast : (let* x := lit32 "123.45" in fx_to_int F32 int32 x) = Ok 123 /\ (let* x := lit32 "123.45" in fx_to_float F32 x) = Ok 123.
Proof. vm_compute. repeat split. Qed.
(** README.md, parse("114a.514a", "a", fp) reads 114 *)
Example d_parse : io_parse (txt "114a.514a" ++ [0]) 3 0 = Ok (3%nat, 7471104).
Proof. vm_compute. reflexivity. Qed.
(** README.md, "Fixed Point Output".  CONTRADICTION: the types s and i are rejected (a compile-time error of std::format). *)
Example d_format :
  eqt (out F32 (lit32 "114.5625")) "114.5625" = true /\ eqt (out F32 (lit32 "-114.5625")) "-114.5625" = true /\
  fmt F32 (d32 1145625 4) ":s}" = Throw format_error /\ fmt F32 (d32 1145625 4) ":i}" = Throw format_error /\
  eqt (fmt F32 (d32 1145625 4) ":f}") "114.562500" = true.
Proof. vm_compute. repeat split. Qed.
(** docs/io.rst *)
Example d_format_io :
  eqt (fmt F64 (l64 "114.514") "}") "114.513999" = true /\ eqt (fmt F64 (l64 "114.514") ":?}") "7283958106" = true.
Proof. vm_compute. repeat split. Qed.
(** docs/math.rst *)
Example d_math :
  eqt (out F64 (un fx_sqrt F64 (l64 "114514"))) "338.3991725756786763668060302734375" = true /\
  eqt (out F32 (un fx_log2 F32 (i32 514))) "9.005615234375" = true.
Proof. vm_compute. repeat split. Qed.
