(** Property theorem C192: the error of tan in every instantiation, and tan against atan. *)
From Coq Require Import ZArith Reals Lia Lra.
From Interval Require Import Tactic.
From Verif Require Import Base Fixed Math Spec SpecReal LogGen2 SinGen TanGen.
Open Scope R_scope.

(** wherever |cos x| is at least 0.1 and the rounding error of cos is small against it *)
Theorem C192_tan : forall c m, wf c = true -> sgn (ct c) = true -> cr c = false -> (3 <= cf c)%Z ->
  (bits (ct c) = 32 /\ cf c <= 27 \/ bits (ct c) = 64 /\ cf c <= 59)%Z ->
  valid c m = true -> (lo (bits (ct c)) true < m)%Z ->
  let x := rval (cf c) m in let u := ulp (cf c) in
  0.1 <= Rabs (cos x) -> (17 + Rabs x / 6) * u <= 0.0249 ->
  exists r, fx_tan c m = Ok r /\ valid c r = true /\
    (0 <= x -> Rabs (rval (cf c) r - tan x) <= (1e-5 + (42 + Rabs x / 2) * u) / (cos x * cos x) + u) /\
    Rabs (rval (cf c) r - tan x) <= (4.3e-4 + (42 + Rabs x / 2) * u) / (cos x * cos x) + u.
Proof. intros c m W S R F B. exact (tan_acc_every c (conj W (conj S (conj R (conj F B)))) m). Qed.
Theorem C192_tan_atan : forall c m, wf c = true -> sgn (ct c) = true -> cr c = false -> (14 <= cf c)%Z ->
  (bits (ct c) = 32 /\ cf c <= 27 \/ bits (ct c) = 64 /\ cf c <= 59)%Z -> Rabs (rval (cf c) m) <= 1 ->
  exists a t, fx_atan c m = Ok a /\ fx_tan c a = Ok t /\ Rabs (rval (cf c) t - rval (cf c) m) <= 1.42e-3 + 108 * ulp (cf c).
Proof. intros c m W S R F B. assert (H : sin_cfg c) by (repeat split; auto; lia). exact (tan_atan_every c H F m). Qed.
Theorem C192_atan_tan : forall c m, wf c = true -> sgn (ct c) = true -> cr c = false -> (14 <= cf c)%Z ->
  (bits (ct c) = 32 /\ cf c <= 27 \/ bits (ct c) = 64 /\ cf c <= 59)%Z -> Rabs (rval (cf c) m) <= 0.78 ->
  exists t a, fx_tan c m = Ok t /\ fx_atan c t = Ok a /\ Rabs (rval (cf c) a - rval (cf c) m) <= 1.15e-3 + 97 * ulp (cf c).
Proof. intros c m W S R F B. assert (H : sin_cfg c) by (repeat split; auto; lia). exact (atan_tan_every c H F m). Qed.
(** 1 and 1/2 with 40 fraction bits *)
Example C192_case : wf Q40 = true /\ valid Q40 (2 ^ 40) = true /\ fx_tan Q40 (2 ^ 40) = Ok 1712387952937%Z /\ fx_tan Q40 (2 ^ 39) = Ok 600665903757%Z /\
  fx_atan Q40 600665903757 = Ok 549715216198%Z /\ fx_atan Q40 (2 ^ 39) = Ok 509802277309%Z /\ fx_tan Q40 509802277309 = Ok 549776192268%Z.
Proof. vm_compute. repeat split. Qed.
Example C192_case_in : 0.1 <= Rabs (cos (rval 40 (2 ^ 40))) /\ (17 + Rabs (rval 40 (2 ^ 40)) / 6) * ulp 40 <= 0.0249 /\ Rabs (rval 40 (2 ^ 39)) <= 0.78.
Proof.
  unfold rval, ulp. change (IZR (2 ^ 39)) with 549755813888. change (IZR (2 ^ 40)) with 1099511627776. repeat split; interval.
Qed.
Print Assumptions C192_tan.
Print Assumptions C192_tan_atan.
Print Assumptions C192_atan_tan.
