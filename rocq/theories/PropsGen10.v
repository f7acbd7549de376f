(** Property theorem C189: order and reciprocals of exp in every instantiation. *)
From Coq Require Import ZArith Reals Lia Lra.
From Interval Require Import Tactic.
From Verif Require Import Base Fixed Math Spec SpecReal LogGen2 SinGen ExpGen2.
Open Scope R_scope.

(** on each side of zero; see C155 for the step down across zero *)
Theorem C189_order : forall c m m', wf c = true -> sgn (ct c) = true -> cr c = false -> (3 <= cf c)%Z ->
  (bits (ct c) = 32 /\ cf c <= 27 \/ bits (ct c) = 64 /\ cf c <= 59)%Z ->
  valid c m = true -> valid c m' = true -> (m <= m')%Z -> (0 < m \/ m' < 0)%Z ->
  exp (Rabs (rval (cf c) m)) <= rval (cf c) (maxv (ct c)) -> exp (Rabs (rval (cf c) m')) <= rval (cf c) (maxv (ct c)) ->
  (12 + 1.4 * Rabs (rval (cf c) m)) * ulp (cf c) <= 0.016 -> (12 + 1.4 * Rabs (rval (cf c) m')) * ulp (cf c) <= 0.016 ->
  exists a b, fx_exp c m = Ok a /\ fx_exp c m' = Ok b /\ (a <= b)%Z.
Proof. intros c m m' W S R F B. exact (exp_gen_order c m m' (conj W (conj S (conj R (conj F B))))). Qed.
(** exp(-x) is the largest value whose product with exp(x) is at most 1 *)
Theorem C189_reciprocal : forall c m, wf c = true -> sgn (ct c) = true -> cr c = false -> (3 <= cf c)%Z ->
  (bits (ct c) = 32 /\ cf c <= 27 \/ bits (ct c) = 64 /\ cf c <= 59)%Z ->
  valid c m = true -> 0 < rval (cf c) m -> exp (rval (cf c) m) <= rval (cf c) (maxv (ct c)) ->
  (12 + 1.4 * rval (cf c) m) * ulp (cf c) <= 0.016 ->
  exists a b, fx_exp c m = Ok a /\ fx_exp c (- m) = Ok b /\ rval (cf c) b * rval (cf c) a <= 1 < (rval (cf c) b + ulp (cf c)) * rval (cf c) a.
Proof. intros c m W S R F B. exact (exp_gen_recip c m (conj W (conj S (conj R (conj F B))))). Qed.
(** 1.5 and 2 with 40 fraction bits *)
Example C189_case : wf Q40 = true /\ valid Q40 2199023255552 = true /\ fx_exp Q40 1649267441664 = Ok 4180417623141%Z /\ fx_exp Q40 2199023255552 = Ok 8124343922027%Z /\
  fx_exp Q40 (-2199023255552) = Ok 148802885650%Z /\ fx_exp Q40 (-1649267441664) = Ok 289187810548%Z.
Proof. vm_compute. repeat split. Qed.
Example C189_case_range : exp (Rabs (rval 40 2199023255552)) <= rval 40 (maxv int64) /\ (12 + 1.4 * Rabs (rval 40 2199023255552)) * ulp 40 <= 0.016.
Proof. unfold rval, ulp. change (IZR (2 ^ 40)) with 1099511627776. change (maxv int64) with 9223372036854775807%Z. split; interval. Qed.
Print Assumptions C189_order.
Print Assumptions C189_reciprocal.
