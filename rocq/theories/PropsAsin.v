(** C52, C154 for fixed64 on the whole of [-1, 1].  Only statements; the proofs are in Asin64Full.v. *)
From Coq Require Import ZArith Reals Lra.
From Verif Require Import Base Fixed Math Spec SpecReal Asin64Full.
Open Scope R_scope.

(** C52: asin and acos are defined on [-1, 1] (next to 1 and -1 the polynomial of atan wraps, but its additions never overflow) *)
Theorem C52_asin_defined64 : forall m, Rabs (rval 32 m) <= 1 ->
  (exists r, fx_asin F64 m = Ok r /\ valid F64 r = true) /\ (exists r, fx_acos F64 m = Ok r /\ valid F64 r = true).
Proof. exact asin64_defined. Qed.
Example C52_case64 : Rabs (rval 32 4294967295) <= 1 /\ fx_asin F64 4294967295 = Ok 6483696746941075522%Z.
Proof.
  split; [|vm_compute; reflexivity]. unfold rval. change (IZR (2 ^ 32)) with 4294967296. rewrite Rabs_pos_eq; lra.
Qed.
Print Assumptions C52_asin_defined64.

(** C154: asin is odd and acos its complement *)
Theorem C154_asin_odd64 : forall m, Rabs (rval 32 m) <= 1 -> exists r, fx_asin F64 m = Ok r /\ fx_asin F64 (- m) = Ok (- r)%Z.
Proof. exact asin64_odd. Qed.
Theorem C154_acos64 : forall m, Rabs (rval 32 m) < 1 -> exists a b b' h,
  fx_asin F64 m = Ok a /\ fx_acos F64 m = Ok b /\ fx_acos F64 (- m) = Ok b' /\ fx_pi_2 F64 = Ok h /\ (a + b = h /\ b + b' = 2 * h)%Z.
Proof. exact acos64_complement. Qed.
Example C154_case64 : fx_asin F64 (-4294967295) = Ok (-6483696746941075522)%Z /\ fx_acos F64 4294967295 = Ok (-6483696740194556670)%Z /\
  fx_acos F64 2147483648 = Ok 4497996099%Z.
Proof. vm_compute. repeat split. Qed.
Print Assumptions C154_asin_odd64.
Print Assumptions C154_acos64.
