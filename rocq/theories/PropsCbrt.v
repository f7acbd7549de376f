(** Property theorems C37, C114: cbrt.  Statements only; proofs are in CbrtProofs.v, CbrtThms.v and RefuteMath.v. *)
From Coq Require Import ZArith QArith.
From Verif Require Import Base Fixed Math Spec RefuteMath CbrtThms.
Open Scope Z_scope.

(** C37: cbrt(-2) divides by zero for both types, cbrt(94) overflows for fixed32 *)
Theorem C37_cbrt_negative_refuted : exists m, valid F32 m = true /\ (qval 16 m == inject_Z (-2))%Q /\ fx_cbrt F32 m = UB.
Proof. exact cbrt_refuted. Qed.
Theorem C37_cbrt64_negative_refuted : exists m, valid F64 m = true /\ (qval 32 m == inject_Z (-2))%Q /\ fx_cbrt F64 m = UB.
Proof. exact cbrt64_refuted. Qed.
Theorem C37_cbrt_large_refuted : exists m, valid F32 m = true /\ (qval 16 m == inject_Z 94)%Q /\ fx_cbrt F32 m = UB.
Proof. exact cbrt_refuted'. Qed.
Print Assumptions C37_cbrt_negative_refuted.
Print Assumptions C37_cbrt64_negative_refuted.
Print Assumptions C37_cbrt_large_refuted.

(** C114: below 94 the fixed32 result is defined, and either its cube is within 15 ulp of x or it is within one ulp of the root *)
Theorem C114_cbrt32 : forall m, (0 <= qval 16 m)%Q -> (qval 16 m < 94)%Q ->
  exists r, fx_cbrt F32 m = Ok r /\ valid F32 r = true /\ (0 <= qval 16 r)%Q /\
    ((qval 16 (m - 15) < qval 16 r * qval 16 r * qval 16 r /\ qval 16 r * qval 16 r * qval 16 r < qval 16 (m + 15))%Q \/
     (qval 16 (r - 1) * qval 16 (r - 1) * qval 16 (r - 1) <= qval 16 m /\ qval 16 m <= qval 16 (r + 1) * qval 16 (r + 1) * qval 16 (r + 1))%Q).
Proof. exact cbrt32_q. Qed.
Example C114_case : fx_cbrt F32 (27 * 65536) = Ok (3 * 65536) /\ fx_cbrt F32 (93 * 65536) = Ok 296921.
Proof. vm_compute. split; reflexivity. Qed.
Theorem C114_cbrt64 : forall m, (0 <= qval 32 m)%Q -> (qval 32 m <= 3868)%Q ->
  exists r, fx_cbrt F64 m = Ok r /\ valid F64 r = true /\ (0 <= qval 32 r)%Q /\
    (qval 32 (m - 655360) < qval 32 r * qval 32 r * qval 32 r /\ qval 32 r * qval 32 r * qval 32 r < qval 32 (m + 655376))%Q.
Proof. exact cbrt64_q. Qed.
Example C114_case64 : fx_cbrt F64 (1000 * 2 ^ 32) = Ok 42949673583.
Proof. vm_compute. reflexivity. Qed.
Print Assumptions C114_cbrt32.
Print Assumptions C114_cbrt64.
