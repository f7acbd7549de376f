(** Property theorem C186: oddness, period and Pythagoras of sin and cos; oddness of asin and atan, in every instantiation. *)
From Coq Require Import ZArith Reals Lia Lra.
From Interval Require Import Tactic.
From Verif Require Import Base Fixed Math Spec SpecReal LogGen2 SinGen AtanGen SqrtGen AsinGen SinSym.
Open Scope R_scope.

Theorem C186_sin_odd : forall c m, wf c = true -> sgn (ct c) = true -> cr c = false -> (3 <= cf c)%Z ->
  (bits (ct c) = 32 /\ cf c <= 27 \/ bits (ct c) = 64 /\ cf c <= 59)%Z ->
  valid c m = true -> (lo (bits (ct c)) true < m)%Z -> 0.000151 <= Rabs (rval (cf c) m) ->
  exists r, fx_sin c m = Ok r /\ fx_sin c (- m) = Ok (- r)%Z.
Proof. intros c m W S R F B. exact (sin_odd_every c m (conj W (conj S (conj R (conj F B))))). Qed.
(** T is 2 pi rounded down; any number of turns apart on the same side of zero *)
Theorem C186_sin_period : forall c m k T, wf c = true -> sgn (ct c) = true -> cr c = false -> (3 <= cf c)%Z ->
  (bits (ct c) = 32 /\ cf c <= 27 \/ bits (ct c) = 64 /\ cf c <= 59)%Z ->
  IZR T <= 2 * PI * IZR (2 ^ cf c) < IZR T + 1 ->
  valid c m = true -> valid c (m + k * T) = true -> (lo (bits (ct c)) true < m)%Z -> (lo (bits (ct c)) true < m + k * T)%Z ->
  0.000151 <= Rabs (rval (cf c) m) -> 0.000151 <= Rabs (rval (cf c) (m + k * T)) -> (0 <= m * (m + k * T))%Z ->
  exists r, fx_double_pi c = Ok T /\ fx_sin c m = Ok r /\ fx_sin c (m + k * T) = Ok r.
Proof. intros c m k T W S R F B. exact (sin_period_every c m k T (conj W (conj S (conj R (conj F B))))). Qed.
Theorem C186_pythagoras : forall c m, wf c = true -> sgn (ct c) = true -> cr c = false -> (3 <= cf c)%Z ->
  (bits (ct c) = 32 /\ cf c <= 27 \/ bits (ct c) = 64 /\ cf c <= 59)%Z ->
  valid c m = true -> (lo (bits (ct c)) true < m)%Z ->
  exists s k, fx_sin c m = Ok s /\ fx_cos c m = Ok k /\
    let E := 3.1e-4 + (17 + Rabs (rval (cf c) m) / 6) * ulp (cf c) in
    Rabs (rval (cf c) s * rval (cf c) s + rval (cf c) k * rval (cf c) k - 1) <= 3 * E + 2 * (E * E).
Proof. intros c m W S R F B. exact (pythagoras_every c m (conj W (conj S (conj R (conj F B))))). Qed.
Theorem C186_atan_odd : forall c m, wf c = true -> sgn (ct c) = true -> cr c = false -> (3 <= cf c)%Z ->
  (bits (ct c) = 32 /\ cf c <= 27 \/ bits (ct c) = 64 /\ cf c <= 59)%Z -> Rabs (rval (cf c) m) <= 1 ->
  exists r, fx_atan c m = Ok r /\ fx_atan c (- m) = Ok (- r)%Z /\ ((0 <= m)%Z -> (0 <= r)%Z).
Proof.
  intros c m W S R F B X. assert (H : sin_cfg c) by (repeat split; auto; lia). pose proof (g_M c H) as HM.
  assert (RM : 8 <= IZR (2 ^ cf c)) by (apply IZR_le; lia). assert (I : 0 < / IZR (2 ^ cf c)) by (apply Rinv_0_lt_compat; lra).
  assert (L : (Z.abs m <= 2 ^ cf c)%Z).
  { apply le_IZR. rewrite abs_IZR. unfold rval, Rdiv in X. rewrite Rabs_mult, (Rabs_pos_eq (/ _)) in X by lra.
    apply Rmult_le_reg_r with (1 := I). rewrite Rinv_r by lra. exact X. }
  destruct (atan_gen c m H L) as (r & A1 & _ & _ & A2 & A3 & _). exists r. auto.
Qed.
Theorem C186_asin_odd : forall c m, wf c = true -> sgn (ct c) = true -> bits (ct c) = 64%Z -> cr c = false -> (13 <= cf c <= 59)%Z ->
  Rabs (rval (cf c) m) <= 0.7 -> exists r, fx_asin c m = Ok r /\ fx_asin c (- m) = Ok (- r)%Z.
Proof.
  intros c m W S B R F X. assert (H : sin_cfg c) by (repeat split; auto; lia).
  destruct (asin_gen64 c H B m ltac:(lia) X) as (r & A1 & _ & _ & A2 & _). exists r. auto.
Qed.
Example C186_case : wf Q8 = true /\ valid Q8 1864 = true /\ fx_double_pi Q8 = Ok 1608%Z /\ fx_sin Q8 256 = Ok 215%Z /\ fx_sin Q8 (-256) = Ok (-215)%Z /\
  fx_sin Q8 (256 + 1 * 1608) = Ok 215%Z /\ fx_cos Q8 256 = Ok 137%Z /\ fx_atan Q8 (-128) = Ok (-118)%Z /\ fx_atan Q8 128 = Ok 118%Z /\
  fx_asin Q40 (- 2 ^ 39) = Ok (-575621825087)%Z.
Proof. vm_compute. repeat split. Qed.
Example C186_case_turn : IZR 1608 <= 2 * PI * IZR (2 ^ 8) < IZR 1608 + 1 /\ 0.000151 <= Rabs (rval 8 256).
Proof. unfold rval. change (IZR (2 ^ 8)) with 256. repeat split; interval. Qed.
Print Assumptions C186_sin_odd.
Print Assumptions C186_sin_period.
Print Assumptions C186_pythagoras.
Print Assumptions C186_atan_odd.
Print Assumptions C186_asin_odd.
