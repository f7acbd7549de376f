(** Model of include/eirin/ext/cordic.hpp. *)
From Coq Require Import ZArith Bool List Ascii String.
From Verif Require Import Base Fixed TextIn Math.
Import ListNotations.
Open Scope Z_scope.

(** the characters of a C string literal including its terminator *)
Definition cstr (s : string) : list Z := map (fun a => Z.of_nat (nat_of_ascii a)) (list_ascii_of_string s) ++ [0].

(** cordic.hpp:14-23: the literal has 24 characters, 22 are passed.  [val] is uninitialised before the call; it is
    always assigned because the text is a small number (the result [false] would be undefined behaviour). *)
Definition assigned (r : res (bool * Z)) : res Z :=
  let* p := r in let '(ok, v) := p in if (ok : bool) then Ok v else UB.
Definition cordic_k (c : cfg) : res Z :=
  assigned (fixed_from_cstring c (firstn 22 (cstr "0.6072529350088812561694")) 0).

(** cordic.hpp:26-53: the table.  Length 22 is passed for literals of 17 characters; the parser stops at the
    terminator, so nothing behind it is read. *)
Definition angle_strs : list string := [
  "0.785398163397448"; "0.463647609000806"; "0.244978663126864";
  "0.124354994546761"; "0.062418809995957"; "0.031239833430268";
  "0.015623728620477"; "0.007812341060101"; "0.003906230131967";
  "0.001953122516479"; "0.000976562189559"; "0.000488281211195";
  "0.000244140620149"; "0.000122070311894"; "0.000061035156174";
  "0.000030517578116"; "0.000015258789061"; "0.000007629394531";
  "0.000003814697266"; "0.000001907348633"; "0.000000953674316";
  "0.000000476837158"; "0.000000238418579"; "0.000000119209290";
  "0.000000059604645"; "0.000000029802322"; "0.000000014901161";
  "0.000000007450581"; "0.000000003725290"; "0.000000001862645";
  "0.000000000931323"; "0.000000000465661"; "0.000000000232831";
  "0.000000000116415"; "0.000000000058208"; "0.000000000029104";
  "0.000000000014552"; "0.000000000007276"; "0.000000000003638";
  "0.000000000001819"; "0.000000000000909"]%string.
Fixpoint parse_all (c : cfg) (l : list string) : res (list Z) :=
  match l with
  | [] => Ok []
  | s :: l => let* v := assigned (fixed_from_cstring c (cstr s) 0) in let* r := parse_all c l in Ok (v :: r)
  end.
Definition cordic_angels (c : cfg) : res (list Z) := parse_all c angle_strs.

(** cordic.hpp:73-104: cordic_optimize_angel; result is the folded angle, sin_sign and cos_sign (both 1 or -1 on
    exit, int8_t arithmetic on them cannot overflow) *)
Definition cordic_optimize_angel (c : cfg) (Q : Z) : res (Z * Z * Z) :=
  let* pi := pi_v c in
  let* double_pi := int_mul_fx c int32 2 pi in
  let* half_pi := fx_div_int c int32 pi 2 in
  let* zero := fx_of_int c 0 in
  let sin_sign := if fx_lt c Q zero then -1 else 1 in
  let* sign_mask := signbit_mask c in
  let abs_value := c_and (ct c) (promote (ct c)) Q (c_not (ct c) sign_mask) in
  let Q := wrap (ct c) abs_value in
  let* Q := fx_rem_assign c Q double_pi in
  let in_second_half := fx_gt c Q pi in
  let* Q := if in_second_half then fx_sub c Q pi else Ok Q in
  let half_sign := if in_second_half then -1 else 1 in
  let in_second_quad := fx_gt c Q half_pi in
  let* Q := if in_second_quad then fx_sub c pi Q else Ok Q in
  let quad_sign := if in_second_quad then -1 else 1 in
  Ok (Q, sin_sign * half_sign, half_sign * quad_sign).

(** cordic.hpp:115-132: the loop; [i] is the iteration, [al] the remaining angles *)
Fixpoint cordic_loop (c : cfg) (Q i : Z) (al : list Z) (x y q : Z) : res (Z * Z) :=
  match al with
  | [] => Ok (x, y)
  | a :: al =>
    let* ys := c_shr (ci c) y i in
    let* xs := c_shr (ci c) x i in
    if fx_lt c q Q then
      let* temp := c_sub (ci c) (promote (ci c)) x ys in
      let* y := c_add (ci c) (promote (ci c)) y xs in
      let* q := fx_add_assign c q a in
      cordic_loop c Q (i + 1) al (wrap (ci c) temp) (wrap (ci c) y) q
    else
      let* temp := c_add (ci c) (promote (ci c)) x ys in
      let* y := c_sub (ci c) (promote (ci c)) y xs in
      let* q := fx_sub_assign c q a in
      cordic_loop c Q (i + 1) al (wrap (ci c) temp) (wrap (ci c) y) q
  end.

(** cordic.hpp:106-141; [count] <= 41 is checked at compile time *)
Definition cordic (c : cfg) (count : nat) (sine : bool) (Q : Z) : res Z :=
  let* r := cordic_optimize_angel c Q in
  let '(Q, sin_sign, cos_sign) := r in
  let* K := cordic_k c in
  let* angels := cordic_angels c in
  let* zero := fx_of_int c 0 in
  let* r := cordic_loop c Q 0 (firstn count angels) (wrap (ci c) K) 0 zero in
  let '(x, y) := r in
  if sine then let* v := c_mul (ct c) int8 (wrap (ct c) y) sin_sign in Ok (wrap (ct c) v)
  else let* v := c_mul (ct c) int8 (wrap (ct c) x) cos_sign in Ok (wrap (ct c) v).

(** cordic.hpp:144-153 *)
Definition cordic_sine64 (x : Z) : res Z := cordic F64 41 true x.
Definition cordic_sine32 (x : Z) : res Z := cordic F32 41 true x.
(** not exposed by the header, but instantiable: the cosine branch *)
Definition cordic_cosine64 (x : Z) : res Z := cordic F64 41 false x.
Definition cordic_cosine32 (x : Z) : res Z := cordic F32 41 false x.
