(** Property theorem C190: cos of -x, and sin and cos of a sum, in every instantiation. *)
From Coq Require Import ZArith Reals Lia Lra.
From Verif Require Import Base Fixed Math Spec SpecReal LogGen2 SinGen SinSum.
Open Scope R_scope.

Theorem C190_cos_even : forall c m, wf c = true -> sgn (ct c) = true -> cr c = false -> (3 <= cf c)%Z ->
  (bits (ct c) = 32 /\ cf c <= 27 \/ bits (ct c) = 64 /\ cf c <= 59)%Z ->
  valid c m = true -> (lo (bits (ct c)) true < m)%Z ->
  exists a b, fx_cos c m = Ok a /\ fx_cos c (- m) = Ok b /\
    Rabs (rval (cf c) a - rval (cf c) b) <= 2 * (3.1e-4 + (17 + Rabs (rval (cf c) m) / 6) * ulp (cf c)).
Proof. intros c m W S R F B. exact (cos_even_every c (conj W (conj S (conj R (conj F B)))) m). Qed.
Theorem C190_sum : forall c m n, wf c = true -> sgn (ct c) = true -> cr c = false -> (3 <= cf c)%Z ->
  (bits (ct c) = 32 /\ cf c <= 27 \/ bits (ct c) = 64 /\ cf c <= 59)%Z ->
  valid c m = true -> valid c n = true -> valid c (m + n) = true ->
  (lo (bits (ct c)) true < m)%Z -> (lo (bits (ct c)) true < n)%Z -> (lo (bits (ct c)) true < m + n)%Z ->
  exists sa sb s ka kb k, fx_sin c m = Ok sa /\ fx_sin c n = Ok sb /\ fx_sin c (m + n) = Ok s /\
    fx_cos c m = Ok ka /\ fx_cos c n = Ok kb /\ fx_cos c (m + n) = Ok k /\
    let err := fun z => 3.1e-4 + (17 + Rabs (rval (cf c) z) / 6) * ulp (cf c) in
    Rabs (rval (cf c) s - (rval (cf c) sa * rval (cf c) kb + rval (cf c) ka * rval (cf c) sb)) <= err (m + n)%Z + 2 * (err m + err n + err m * err n) /\
    Rabs (rval (cf c) k - (rval (cf c) ka * rval (cf c) kb - rval (cf c) sa * rval (cf c) sb)) <= err (m + n)%Z + 2 * (err m + err n + err m * err n).
Proof. intros c m n W S R F B. exact (sum_every c (conj W (conj S (conj R (conj F B)))) m n). Qed.
(** 1 and 1/2 with 8 fraction bits: 215 * 225 + 137 * 122 is 254 * 256, rounded *)
Example C190_case : wf Q8 = true /\ valid Q8 (256 + 128) = true /\ fx_sin Q8 256 = Ok 215%Z /\ fx_sin Q8 128 = Ok 122%Z /\ fx_sin Q8 (256 + 128) = Ok 255%Z /\
  fx_cos Q8 256 = Ok 137%Z /\ fx_cos Q8 128 = Ok 225%Z /\ fx_cos Q8 (256 + 128) = Ok 17%Z /\ fx_cos Q8 (-384) = Ok 17%Z.
Proof. vm_compute. repeat split. Qed.
Print Assumptions C190_cos_even.
Print Assumptions C190_sum.
