(** Property theorem C193: log of exp and exp of log in every instantiation that has both. *)
From Coq Require Import ZArith Reals Lia Lra.
From Interval Require Import Tactic.
From Verif Require Import Base Fixed Math Spec SpecReal LogGen LogGen2 SinGen ExpLogGen.
Open Scope R_scope.

(** exp is up to 18.4% too small between the integers (C42), and -ln(1 - 0.2) is 0.2231 *)
Theorem C193_log_exp : forall c m, wf c = true -> sgn (ct c) = true -> cr c = false -> (3 <= cf c)%Z ->
  (bits (ct c) = 32 /\ cf c <= 26 \/ bits (ct c) = 64 /\ cf c <= 32)%Z -> valid c m = true ->
  let x := rval (cf c) m in let u := ulp (cf c) in
  0 <= x -> exp x <= rval (cf c) (hi (bits (ct c)) true) -> (12 + 1.4 * x) * u <= 0.016 ->
  exists a l, fx_exp c m = Ok a /\ fx_log c a = Ok l /\ -0.2232 - (6.3 + x) * u <= rval (cf c) l - x <= (6.3 + x) * u.
Proof.
  intros c m W S R F B V x u. assert (H : sin_cfg c) by (repeat split; auto; lia).
  pose proof (log_exp_every c H (conj W (conj S B)) R m V) as X. unfold maxv in X. rewrite S in X. exact X.
Qed.
(** d is the error of the logarithm; the range conditions say that exp of the logarithm and of its negation fit *)
Theorem C193_exp_log : forall c m, wf c = true -> sgn (ct c) = true -> cr c = false -> (3 <= cf c)%Z ->
  (bits (ct c) = 32 /\ cf c <= 26 \/ bits (ct c) = 64 /\ cf c <= 32)%Z -> valid c m = true ->
  let b := rval (cf c) m in let u := ulp (cf c) in let top := rval (cf c) (hi (bits (ct c)) true) in
  0 < b -> let d := (6 + Rabs (ln b)) * u in
  b * exp d <= top -> exp d <= top * b -> (12 + 1.4 * (Rabs (ln b) + d)) * u <= 0.016 ->
  exists l r, fx_log c m = Ok l /\ fx_exp c l = Ok r /\
    0.8 * b * exp (- d) - u <= rval (cf c) r <= 1.25 * b * exp d /\
    (d <= ln b -> rval (cf c) r <= b * exp d) /\ (ln b < - d -> b * exp (- d) - u < rval (cf c) r).
Proof.
  intros c m W S R F B V b u top. assert (H : sin_cfg c) by (repeat split; auto; lia).
  pose proof (exp_log_every c H (conj W (conj S B)) R m V) as X. unfold maxv in X. rewrite S in X. exact X.
Qed.
Definition Q20l : cfg := {| ct := int64; ci := int128; cf := 20; cr := false |}.
(** 3/2 and 10 with 20 fraction bits *)
Example C193_case : wf Q20l = true /\ fx_exp Q20l (3 * 2 ^ 19) = Ok 3986751%Z /\ fx_log Q20l 3986751 = Ok 1400418%Z /\
  fx_log Q20l (10 * 2 ^ 20) = Ok 2414436%Z /\ fx_exp Q20l 2414436 = Ok 9313438%Z.
Proof. vm_compute. repeat split. Qed.
Example C193_case_in : exp (rval 20 (3 * 2 ^ 19)) <= rval 20 (hi 64 true) /\ (12 + 1.4 * rval 20 (3 * 2 ^ 19)) * ulp 20 <= 0.016 /\
  let d := (6 + Rabs (ln (rval 20 (10 * 2 ^ 20)))) * ulp 20 in
  rval 20 (10 * 2 ^ 20) * exp d <= rval 20 (hi 64 true) /\ exp d <= rval 20 (hi 64 true) * rval 20 (10 * 2 ^ 20) /\
  (12 + 1.4 * (Rabs (ln (rval 20 (10 * 2 ^ 20))) + d)) * ulp 20 <= 0.016.
Proof.
  unfold rval, ulp, hi. change (IZR (3 * 2 ^ 19)) with 1572864. change (IZR (10 * 2 ^ 20)) with 10485760. change (IZR (2 ^ 20)) with 1048576.
  change (IZR (2 ^ (64 - 1) - 1)) with 9223372036854775807. cbv zeta. repeat split; interval.
Qed.
Print Assumptions C193_log_exp.
Print Assumptions C193_exp_log.
