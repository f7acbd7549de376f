(** Property theorem C180: atan of every instantiation on [-1, 1]. *)
From Coq Require Import ZArith Reals Lia Lra.
From Verif Require Import Base Fixed Math Spec SpecReal LogGen2 SinGen AtanGen.
Open Scope R_scope.

Theorem C180_atan : forall c m, wf c = true -> sgn (ct c) = true -> cr c = false -> (3 <= cf c)%Z ->
  (bits (ct c) = 32 /\ cf c <= 27 \/ bits (ct c) = 64 /\ cf c <= 59)%Z -> (Z.abs m <= 2 ^ cf c)%Z ->
  exists r, fx_atan c m = Ok r /\ valid c r = true /\ (Z.abs r <= 2 ^ cf c)%Z /\ fx_atan c (- m) = Ok (- r)%Z /\ (0 <= m -> 0 <= r)%Z /\
    Rabs (rval (cf c) r - atan (rval (cf c) m)) <= 2.7e-4 + 10 * ulp (cf c).
Proof. intros c m W S R F B. exact (atan_gen c m (conj W (conj S (conj R (conj F B))))). Qed.
Example C180_case : wf Q8 = true /\ fx_atan Q8 256 = Ok 202%Z /\ fx_atan Q8 (-128) = Ok (-118)%Z /\ wf Q40 = true /\ fx_atan Q40 (2 ^ 40) = Ok 863331011791%Z.
Proof. vm_compute. repeat split. Qed.
Print Assumptions C180_atan.
