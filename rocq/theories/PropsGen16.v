(** Property theorem C195: the period of cos and tan in every instantiation, bit for bit. *)
From Coq Require Import ZArith Reals Lia Lra.
From Interval Require Import Tactic.
From Verif Require Import Base Fixed Math Spec SpecReal LogGen2 SinGen PeriodGen.
Open Scope R_scope.

(** T is 2 pi rounded down; cos shifts a positive argument by 3 pi / 2 and any other by pi / 2, and must not cross zero by that *)
Theorem C195_cos_period : forall c m k T, wf c = true -> sgn (ct c) = true -> cr c = false -> (3 <= cf c)%Z ->
  (bits (ct c) = 32 /\ cf c <= 27 \/ bits (ct c) = 64 /\ cf c <= 59)%Z ->
  IZR T <= 2 * PI * IZR (2 ^ cf c) < IZR T + 1 -> valid c m = true -> valid c (m + k * T) = true ->
  4.7126 + ulp (cf c) <= rval (cf c) m /\ 4.7126 + ulp (cf c) <= rval (cf c) (m + k * T) \/
    rval (cf c) m <= - 1.571 /\ rval (cf c) (m + k * T) <= - 1.571 ->
  exists r, fx_double_pi c = Ok T /\ fx_cos c m = Ok r /\ fx_cos c (m + k * T) = Ok r.
Proof. intros c m k T W S R F B. exact (cos_period_every c (conj W (conj S (conj R (conj F B)))) m k T). Qed.
Theorem C195_tan_period : forall c m k T, wf c = true -> sgn (ct c) = true -> cr c = false -> (3 <= cf c)%Z ->
  (bits (ct c) = 32 /\ cf c <= 27 \/ bits (ct c) = 64 /\ cf c <= 59)%Z ->
  IZR T <= 2 * PI * IZR (2 ^ cf c) < IZR T + 1 -> valid c m = true -> valid c (m + k * T) = true ->
  (lo (bits (ct c)) true < m)%Z -> (lo (bits (ct c)) true < m + k * T)%Z ->
  4.7126 + ulp (cf c) <= rval (cf c) m /\ 4.7126 + ulp (cf c) <= rval (cf c) (m + k * T) \/
    rval (cf c) m <= - 1.571 /\ rval (cf c) (m + k * T) <= - 1.571 ->
  fx_double_pi c = Ok T /\ fx_tan c (m + k * T) = fx_tan c m.
Proof. intros c m k T W S R F B. exact (tan_period_every c (conj W (conj S (conj R (conj F B)))) m k T). Qed.
(** 5 and three turns on, -5 and two turns back, with 8 fraction bits *)
Example C195_case : wf Q8 = true /\ fx_double_pi Q8 = Ok 1608%Z /\ fx_cos Q8 1280 = Ok 72%Z /\ fx_cos Q8 (1280 + 3 * 1608) = Ok 72%Z /\
  fx_tan Q8 1280 = Ok (-878)%Z /\ fx_tan Q8 (1280 + 3 * 1608) = Ok (-878)%Z /\ fx_cos Q8 (-1280) = Ok 72%Z /\ fx_cos Q8 (-1280 + -2 * 1608) = Ok 72%Z.
Proof. vm_compute. repeat split. Qed.
Example C195_case_in : IZR 1608 <= 2 * PI * IZR (2 ^ 8) < IZR 1608 + 1 /\ 4.7126 + ulp 8 <= rval 8 1280 /\ rval 8 (-1280) <= - 1.571.
Proof. unfold rval, ulp. change (IZR (2 ^ 8)) with 256. repeat split; interval. Qed.
Print Assumptions C195_cos_period.
Print Assumptions C195_tan_period.
