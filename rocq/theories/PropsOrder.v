(** C167: the order of sin, cos, atan, asin and acos.  Only statements; the proofs are in OrderProofs.v and OrderAsin.v. *)
From Coq Require Import ZArith QArith Qabs Reals Lra.
From Verif Require Import Base Fixed Math Spec SpecReal StdProofs OrderProofs OrderAsin.
Open Scope Z_scope.

(** C167 as stated is false: neighbouring arguments in the first quadrant (or in [-1, 1]) with results in the wrong order.
    The first pair is where sin switches from the identity to the polynomial. *)
Theorem C167_sin_refuted : fx_sin F32 8 = Ok 8 /\ fx_sin F32 9 = Ok 7 /\ fx_sin F32 72051 = Ok 58390 /\ fx_sin F32 72052 = Ok 58389.
Proof. exact sin32_down. Qed.
Theorem C167_sin64_refuted : fx_sin F64 4294791732 = Ok 3613995607 /\ fx_sin F64 4294791733 = Ok 3613995606.
Proof. exact sin64_down. Qed.
Theorem C167_cos_refuted : fx_cos F32 3 = Ok 65536 /\ fx_cos F32 4 = Ok 65537.
Proof. exact cos_down. Qed.
Theorem C167_atan_refuted :
  fx_atan F32 50005 = Ok 42708 /\ fx_atan F32 50006 = Ok 42707 /\ fx_atan F64 3221225501 = Ok 2763311657 /\ fx_atan F64 3221225502 = Ok 2763311656.
Proof. exact atan_down. Qed.
(** The order is kept exactly for smaller arguments ... *)
Theorem C167_atan : forall c x y, std c -> (Qabs (qval (cf c) x) <= 9 # 16)%Q -> (Qabs (qval (cf c) y) <= 9 # 16)%Q ->
  (qval (cf c) x <= qval (cf c) y)%Q ->
  exists p q, fx_atan c x = Ok p /\ fx_atan c y = Ok q /\ (qval (cf c) p <= qval (cf c) q)%Q.
Proof. exact atan_mono_thm. Qed.
Theorem C167_sin : forall c x y, std c -> (15 # 100000 <= qval (cf c) x)%Q -> (qval (cf c) x <= qval (cf c) y)%Q -> (qval (cf c) y <= 2 # 3)%Q ->
  exists p q, fx_sin c x = Ok p /\ fx_sin c y = Ok q /\ (qval (cf c) p <= qval (cf c) q)%Q.
Proof. exact sin_mono_thm. Qed.
Theorem C167_asin_acos32 : forall x y, (Qabs (qval 16 x) <= 49 # 100)%Q -> (Qabs (qval 16 y) <= 49 # 100)%Q -> (qval 16 x <= qval 16 y)%Q ->
  exists p q p' q', fx_asin F32 x = Ok p /\ fx_asin F32 y = Ok q /\ (qval 16 p <= qval 16 q)%Q /\
    fx_acos F32 x = Ok p' /\ fx_acos F32 y = Ok q' /\ (qval 16 q' <= qval 16 p')%Q.
Proof. exact asin_mono_thm. Qed.
Example C167_case : std F64 /\ (Qabs (qval 32 (-1073741824)) <= 9 # 16)%Q /\ (Qabs (qval 32 2147483648) <= 9 # 16)%Q /\
  (15 # 100000 <= qval 32 1073741824)%Q /\ (qval 32 1073741824 <= qval 32 2147483648)%Q /\ (qval 32 2147483648 <= 2 # 3)%Q /\
  (Qabs (qval 16 (-16384)) <= 49 # 100)%Q /\ (Qabs (qval 16 32112) <= 49 # 100)%Q /\
  fx_atan F64 (-1073741824) = Ok (-1052411455) /\ fx_sin F64 2147483648 = Ok 2059117009 /\ fx_asin F32 32112 = Ok 33555 /\ fx_acos F32 32112 = Ok 69388.
Proof. split; [right; reflexivity|]. vm_compute. repeat split; discriminate. Qed.
(** ... and up to a few units in the last place (fixed64 sin and cos: the error of the polynomial) everywhere *)
Open Scope R_scope.
Theorem C167_atan_near : forall c x y, std c -> Rabs (rval (cf c) x) <= 1 -> Rabs (rval (cf c) y) <= 1 -> rval (cf c) x <= rval (cf c) y ->
  exists p q, fx_atan c x = Ok p /\ fx_atan c y = Ok q /\ rval (cf c) p <= rval (cf c) q + 16 * ulp (cf c).
Proof. exact atan_near_thm. Qed.
Theorem C167_sin_near32 : forall x y, 0 <= rval 16 x -> rval 16 x <= rval 16 y -> rval 16 y <= PI / 2 ->
  exists p q, fx_sin F32 x = Ok p /\ fx_sin F32 y = Ok q /\ rval 16 p <= rval 16 q + 33 * ulp 16.
Proof. exact sin_near32. Qed.
Theorem C167_sin_near64 : forall x y, 0 <= rval 32 x -> rval 32 x <= rval 32 y -> rval 32 y <= PI / 2 ->
  exists p q, fx_sin F64 x = Ok p /\ fx_sin F64 y = Ok q /\ rval 32 p <= rval 32 q + 7.43e-6.
Proof. exact sin_near64. Qed.
Theorem C167_cos_near32 : forall x y, 0 <= rval 16 x -> rval 16 x <= rval 16 y -> rval 16 y <= PI ->
  exists p q, fx_cos F32 x = Ok p /\ fx_cos F32 y = Ok q /\ rval 16 q <= rval 16 p + 37 * ulp 16.
Proof. exact cos_near32. Qed.
Theorem C167_cos_near64 : forall x y, 0 <= rval 32 x -> rval 32 x <= rval 32 y -> rval 32 y <= PI ->
  exists p q, fx_cos F64 x = Ok p /\ fx_cos F64 y = Ok q /\ rval 32 q <= rval 32 p + 7.45e-6.
Proof. exact cos_near64. Qed.
Example C167_case_near : std F32 /\ Rabs (rval 16 65536) <= 1 /\ 0 <= rval 16 65536 /\ rval 16 65536 <= PI / 2 /\ fx_atan F32 65536 = Ok 51458%Z.
Proof.
  assert (E : rval 16 65536 = 1) by (unfold rval; change (IZR (2 ^ 16)) with 65536; lra). rewrite E.
  pose proof PI2_1. split; [left; reflexivity|]. split; [rewrite Rabs_R1; lra|]. split; [lra|]. split; [lra|vm_compute; reflexivity].
Qed.
Print Assumptions C167_sin_refuted.
Print Assumptions C167_sin64_refuted.
Print Assumptions C167_cos_refuted.
Print Assumptions C167_atan_refuted.
Print Assumptions C167_atan.
Print Assumptions C167_sin.
Print Assumptions C167_asin_acos32.
Print Assumptions C167_atan_near.
Print Assumptions C167_sin_near32.
Print Assumptions C167_sin_near64.
Print Assumptions C167_cos_near32.
Print Assumptions C167_cos_near64.
