(** Property theorems C183 and C184: the square root, asin and acos of every instantiation. *)
From Coq Require Import ZArith Reals Lia Lra.
From Interval Require Import Tactic.
From Verif Require Import Base Fixed Math Spec SpecReal SinGen LogGen2 SqrtGen AsinGen.
Open Scope R_scope.

(** C183: with an even number of fraction bits the square root of the largest value is undefined *)
Theorem C183_even_refuted : forall c, wf c = true -> sgn (ct c) = true -> bits (ct c) = 64%Z -> cr c = false -> (3 <= cf c <= 59)%Z ->
  Z.even (cf c) = true -> valid c (2 ^ 63 - 1) = true /\ fx_sqrt c (2 ^ 63 - 1) = UB.
Proof.
  intros c W S B R F E. assert (H : sin_cfg c) by (repeat split; auto; lia).
  split; [apply (g_valid c H); unfold top; rewrite B; lia|]. apply sqrt_even_top; auto. rewrite <- Z.negb_even, E. reflexivity.
Qed.
(** below half of the range, and on the whole range with an odd number of fraction bits, the root is accurate *)
Theorem C183_sqrt : forall c m, wf c = true -> sgn (ct c) = true -> bits (ct c) = 64%Z -> cr c = false -> (3 <= cf c <= 59)%Z ->
  valid c m = true -> 0 < rval (cf c) m -> (m < 2 ^ 62)%Z \/ Z.odd (cf c) = true ->
  exists r, fx_sqrt c m = Ok r /\ valid c r = true /\ (0 < r)%Z /\
    sqrt (rval (cf c) m) - ulp (cf c) < rval (cf c) r /\
    - (2 * ulp (cf c) * sqrt (rval (cf c) m)) <= rval (cf c) r * rval (cf c) r - rval (cf c) m /\
    rval (cf c) r * rval (cf c) r - rval (cf c) m <=
      5 / 65536 + ulp (cf c) + 4 * ulp (cf c) * (sqrt (rval (cf c) m) + ulp (cf c)) + 5e-16 * rval (cf c) m.
Proof.
  intros c m W S B R F V P D. assert (H : sin_cfg c) by (repeat split; auto; lia).
  apply (g_valid c H) in V. unfold top in V. rewrite B in V. change (64 - 1)%Z with 63%Z in V.
  apply sqrt_gen64_real; auto; [|lia]. pose proof (g_M c H) as HM. apply lt_IZR. unfold rval, Rdiv in P.
  assert (0 < / IZR (2 ^ cf c)) by (apply Rinv_0_lt_compat; apply IZR_lt; lia). apply Rmult_lt_reg_r with (/ IZR (2 ^ cf c)); lra.
Qed.
Example C183_case : wf (S64 13) = true /\ fx_sqrt (S64 13) 16384 = Ok 11585%Z /\ wf (S64 59) = true /\ fx_sqrt (S64 59) (2 ^ 60) = Ok 815239838429106256%Z /\
  valid (S64 21) (2 ^ 63 - 1) = true /\ fx_sqrt (S64 21) (2 ^ 63 - 1) = Ok 4398046511103%Z.
Proof. vm_compute. repeat split. Qed.

(** C184: a 32-bit store uses the square root that is right for 16 fraction bits only; asin(1/2) is 221.6 with 20 fraction bits, 0.036 with 12 *)
Theorem C184_width_refuted : wf Q20 = true /\ wf Q12 = true /\
  fx_asin Q20 (2 ^ 19) = Ok 232391357%Z /\ 221 <= rval 20 232391357 - asin (rval 20 (2 ^ 19)) /\
  fx_acos Q20 (2 ^ 19) = Ok (-230744258)%Z /\ 221 <= acos (rval 20 (2 ^ 19)) - rval 20 (-230744258) /\
  fx_asin Q12 (2 ^ 11) = Ok 146%Z /\ 0.48 <= asin (rval 12 (2 ^ 11)) - rval 12 146.
Proof. exact asin_width. Qed.
Theorem C184_asin : forall c m, wf c = true -> sgn (ct c) = true -> bits (ct c) = 64%Z -> cr c = false -> (13 <= cf c <= 59)%Z ->
  Rabs (rval (cf c) m) <= 0.7 ->
  exists r, fx_asin c m = Ok r /\ valid c r = true /\ Rabs (rval (cf c) r - asin (rval (cf c) m)) <= 3.5e-4 + 18 * ulp (cf c).
Proof.
  intros c m W S B R F X. assert (H : sin_cfg c) by (repeat split; auto; lia).
  destruct (asin_gen64 c H B m ltac:(lia) X) as (r & A1 & A2 & _ & _ & A3). exists r. auto.
Qed.
Theorem C184_acos : forall c m, wf c = true -> sgn (ct c) = true -> bits (ct c) = 64%Z -> cr c = false -> (13 <= cf c <= 59)%Z ->
  Rabs (rval (cf c) m) <= 0.7 ->
  exists r, fx_acos c m = Ok r /\ valid c r = true /\ Rabs (rval (cf c) r - acos (rval (cf c) m)) <= 3.5e-4 + 20 * ulp (cf c).
Proof. intros c m W S B R F X. assert (H : sin_cfg c) by (repeat split; auto; lia). apply acos_gen64; auto; lia. Qed.
Example C184_case : wf Q40 = true /\ fx_asin Q40 (2 ^ 39) = Ok 575621825087%Z /\ wf (S64 13) = true /\ fx_asin (S64 13) 4096 = Ok 4287%Z /\
  fx_acos (S64 56) (2 ^ 55) = Ok 75463852103468527%Z /\ Rabs (rval 40 (2 ^ 39)) <= 0.7.
Proof.
  repeat split; try (vm_compute; reflexivity). unfold rval. change (IZR (2 ^ 39)) with 549755813888. change (IZR (2 ^ 40)) with 1099511627776. interval.
Qed.
Print Assumptions C183_even_refuted.
Print Assumptions C183_sqrt.
Print Assumptions C184_width_refuted.
Print Assumptions C184_asin.
Print Assumptions C184_acos.
