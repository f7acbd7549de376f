(** Property theorem C182: degrees and radians of every instantiation. *)
From Coq Require Import ZArith Reals Lia Lra.
From Interval Require Import Tactic.
From Verif Require Import Base Fixed Math Spec SpecReal LogGen2 SinGen AngleGen.
Open Scope R_scope.

(** with 24 (56) fraction bits the constant 180 wraps to -76: one degree is -0.041 radians, half a radian is -12.1 degrees *)
Theorem C182_wide_refuted : wf Q24 = true /\ wf Q56 = true /\
  fx_radians Q24 (2 ^ 24) = Ok (-693513)%Z /\ 0.058 <= PI / 180 - rval 24 (-693513) /\
  fx_radians Q56 (2 ^ 56) = Ok (-2978626421906712)%Z /\ 0.058 <= PI / 180 - rval 56 (-2978626421906712) /\
  fx_degrees Q24 (2 ^ 23) = Ok (-202933376)%Z /\ 40 <= / 2 * (180 / PI) - rval 24 (-202933376).
Proof. exact angles_wide. Qed.
Theorem C182_radians : forall c m, wf c = true -> sgn (ct c) = true -> cr c = false -> (3 <= cf c)%Z ->
  (bits (ct c) = 32 /\ cf c <= 23 \/ bits (ct c) = 64 /\ cf c <= 55)%Z -> valid c m = true ->
  exists r, fx_radians c m = Ok r /\ valid c r = true /\
    Rabs (rval (cf c) r - rval (cf c) m * (PI / 180)) <= (5 + Rabs (rval (cf c) m) / 180) * ulp (cf c).
Proof. intros c m W S R F B. apply radians_gen_every; [repeat split; auto; lia|unfold holds180; lia]. Qed.
(** wherever the result and its error fit *)
Theorem C182_degrees : forall c m, wf c = true -> sgn (ct c) = true -> cr c = false -> (3 <= cf c)%Z ->
  (bits (ct c) = 32 /\ cf c <= 23 \/ bits (ct c) = 64 /\ cf c <= 55)%Z -> valid c m = true ->
  Rabs (rval (cf c) m * (180 / PI)) + (180 + 20 * Rabs (rval (cf c) m)) * ulp (cf c) <= rval (cf c) (hi (bits (ct c)) true) ->
  exists r, fx_degrees c m = Ok r /\ valid c r = true /\
    Rabs (rval (cf c) r - rval (cf c) m * (180 / PI)) <= (180 + 20 * Rabs (rval (cf c) m)) * ulp (cf c).
Proof.
  intros c m W S R F B V H. apply degrees_gen_every; auto; [repeat split; auto; lia|unfold holds180; lia|].
  unfold maxv. rewrite S. exact H.
Qed.
Example C182_case : wf Q8 = true /\ valid Q8 46080 = true /\ fx_radians Q8 46080 = Ok 804%Z /\ fx_degrees Q8 256 = Ok 14580%Z /\
  wf Q40 = true /\ fx_radians Q40 (90 * 2 ^ 40) = Ok 1727108826178%Z /\ fx_degrees Q40 (2 ^ 40) = Ok 62997375797100%Z.
Proof. vm_compute. repeat split. Qed.
Example C182_case_room : Rabs (rval 8 256 * (180 / PI)) + (180 + 20 * Rabs (rval 8 256)) * ulp 8 <= rval 8 (hi 32 true).
Proof.
  unfold rval, ulp, hi. change (IZR (2 ^ 8)) with 256. change (IZR (2 ^ (32 - 1) - 1)) with 2147483647. interval.
Qed.
Print Assumptions C182_wide_refuted.
Print Assumptions C182_radians.
Print Assumptions C182_degrees.
