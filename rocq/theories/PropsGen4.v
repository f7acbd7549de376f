(** Property theorem C181: exp of every instantiation, wherever e^|x| is representable. *)
From Coq Require Import ZArith Reals Lia Lra.
From Interval Require Import Tactic.
From Verif Require Import Base Fixed Math Spec SpecReal LogGen2 SinGen ExpGen.
Open Scope R_scope.

(** no instantiation gets e^(1/2) = 1.6487 right: the result is 1.398 or less *)
Theorem C181_exp_half_refuted : forall c, wf c = true -> sgn (ct c) = true -> cr c = false -> (3 <= cf c)%Z ->
  (bits (ct c) = 32 /\ cf c <= 27 \/ bits (ct c) = 64 /\ cf c <= 59)%Z ->
  exists r, fx_exp c (2 ^ (cf c - 1)) = Ok r /\ rval (cf c) (2 ^ (cf c - 1)) = / 2 /\ rval (cf c) r <= exp (/ 2) - 0.25.
Proof. intros c W S R F B. exact (exp_half c (conj W (conj S (conj R (conj F B))))). Qed.
(** the quintic for the fraction is up to 18.4% too small (C42), hence the factor 0.816 *)
Theorem C181_exp_nonneg : forall c m, wf c = true -> sgn (ct c) = true -> cr c = false -> (3 <= cf c)%Z ->
  (bits (ct c) = 32 /\ cf c <= 27 \/ bits (ct c) = 64 /\ cf c <= 59)%Z -> valid c m = true -> (0 <= m)%Z ->
  exp (Rabs (rval (cf c) m)) <= rval (cf c) (hi (bits (ct c)) true) ->
  exists r, fx_exp c m = Ok r /\ valid c r = true /\
    (0.816 - (12 + 1.4 * rval (cf c) m) * ulp (cf c)) * exp (rval (cf c) m) <= rval (cf c) r <= exp (rval (cf c) m).
Proof.
  intros c m W S R F B V P E. apply (exp_gen c m (conj W (conj S (conj R (conj F B)))) V); auto.
  unfold maxv. rewrite S. exact E.
Qed.
Theorem C181_exp_neg : forall c m, wf c = true -> sgn (ct c) = true -> cr c = false -> (3 <= cf c)%Z ->
  (bits (ct c) = 32 /\ cf c <= 27 \/ bits (ct c) = 64 /\ cf c <= 59)%Z -> valid c m = true -> (m < 0)%Z ->
  exp (Rabs (rval (cf c) m)) <= rval (cf c) (hi (bits (ct c)) true) -> (12 + 1.4 * Rabs (rval (cf c) m)) * ulp (cf c) <= 0.016 ->
  exists r, fx_exp c m = Ok r /\ valid c r = true /\
    exp (rval (cf c) m) - ulp (cf c) < rval (cf c) r <= 1.25 * exp (rval (cf c) m).
Proof.
  intros c m W S R F B V P E. apply (exp_gen c m (conj W (conj S (conj R (conj F B)))) V); auto.
  unfold maxv. rewrite S. exact E.
Qed.
(** e^2 and e^0.5 with 8 fraction bits; e and 1/e with 40 *)
Example C181_case : wf Q8 = true /\ valid Q8 512 = true /\ fx_exp Q8 512 = Ok 1878%Z /\ fx_exp Q8 128 = Ok 356%Z /\
  wf Q40 = true /\ fx_exp Q40 (2 ^ 40) = Ok 2988779101921%Z /\ fx_exp Q40 (- 2 ^ 40) = Ok 404488180085%Z.
Proof. vm_compute. repeat split. Qed.
Example C181_case_room : exp (Rabs (rval 8 512)) <= rval 8 (hi 32 true) /\ (12 + 1.4 * Rabs (rval 40 (- 2 ^ 40))) * ulp 40 <= 0.016.
Proof.
  unfold rval, ulp, hi. change (IZR (2 ^ 8)) with 256. change (IZR (2 ^ 40)) with 1099511627776. change (IZR (- 2 ^ 40)) with (-1099511627776).
  change (IZR (2 ^ (32 - 1) - 1)) with 2147483647. split; interval.
Qed.
Print Assumptions C181_exp_nonneg.
Print Assumptions C181_exp_neg.
Print Assumptions C181_exp_half_refuted.
