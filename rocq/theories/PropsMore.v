(** Property theorems C115, C51: asin and acos where the atan polynomial is valid, or at least does not overflow.
    Statements only; proofs are in AsinAcc.v and Asin64.v. *)
From Coq Require Import ZArith Reals Lra.
From Verif Require Import Base Fixed Math Spec SpecReal AsinAcc Asin64.
Open Scope R_scope.

(** C115 *)
Theorem C115_asin32 : forall m, Rabs (rval 16 m) <= 0.7 ->
  exists r, fx_asin F32 m = Ok r /\ valid F32 r = true /\ Rabs (rval 16 r - asin (rval 16 m)) <= 5e-4.
Proof. exact asin32_acc. Qed.
Theorem C115_asin64 : forall m, Rabs (rval 32 m) <= 0.7 ->
  exists r, fx_asin F64 m = Ok r /\ valid F64 r = true /\ Rabs (rval 32 r - asin (rval 32 m)) <= 3.5e-4.
Proof. exact asin64_acc. Qed.
Theorem C115_acos32 : forall m, Rabs (rval 16 m) <= 0.7 ->
  exists r, fx_acos F32 m = Ok r /\ valid F32 r = true /\ Rabs (rval 16 r - acos (rval 16 m)) <= 5.2e-4.
Proof. exact acos32_acc. Qed.
Theorem C115_acos64 : forall m, Rabs (rval 32 m) <= 0.7 ->
  exists r, fx_acos F64 m = Ok r /\ valid F64 r = true /\ Rabs (rval 32 r - acos (rval 32 m)) <= 3.6e-4.
Proof. exact acos64_acc. Qed.
Example C115_case : Rabs (rval 16 (-32768)) <= 0.7 /\ fx_asin F32 (-32768) = Ok (-34309)%Z /\ fx_acos F32 (-32768) = Ok 137252%Z.
Proof.
  split; [|vm_compute; split; reflexivity]. unfold rval. change (IZR (2 ^ 16)) with 65536. rewrite Rabs_left1; lra.
Qed.
Print Assumptions C115_asin32.
Print Assumptions C115_asin64.
Print Assumptions C115_acos32.
Print Assumptions C115_acos64.

(** C51: the fixed64 polynomial stays in range up to |x| = 23 *)
Theorem C51_atan_defined64 : forall m, Rabs (rval 32 m) <= 23 -> exists r, fx_atan F64 m = Ok r /\ valid F64 r = true.
Proof. exact atan64_def_thm. Qed.
Example C51_case64 : fx_atan F64 98784247808 = Ok (-675559456565190725)%Z.
Proof. vm_compute. reflexivity. Qed.
Print Assumptions C51_atan_defined64.
