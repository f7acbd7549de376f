(** Property theorem C185: order, oddness and round trip of degrees and radians in every instantiation that holds 180. *)
From Coq Require Import ZArith Reals Lia Lra.
From Interval Require Import Tactic.
From Verif Require Import Base Fixed Math Spec SpecReal LogGen2 SinGen AngleGen AngleGen2.
Open Scope R_scope.

Lemma rv_le c a b : wf c = true -> sgn (ct c) = true -> rval (cf c) a <= rval (cf c) b <-> (a <= b)%Z.
Proof.
  intros W _. assert (F : (1 <= cf c)%Z) by (unfold wf in W; rewrite !Bool.andb_true_iff in W; lia).
  assert (P : 0 < / IZR (2 ^ cf c)) by (apply Rinv_0_lt_compat; apply IZR_lt; apply Z.pow_pos_nonneg; lia).
  unfold rval, Rdiv. split; intros H; [apply le_IZR; apply Rmult_le_reg_r with (1 := P); exact H|apply Rmult_le_compat_r; [lra|apply IZR_le; exact H]].
Qed.
Theorem C185_radians_order : forall c m n, wf c = true -> sgn (ct c) = true -> cr c = false -> (3 <= cf c)%Z ->
  (bits (ct c) = 32 /\ cf c <= 23 \/ bits (ct c) = 64 /\ cf c <= 55)%Z -> valid c m = true -> valid c n = true ->
  rval (cf c) m <= rval (cf c) n -> exists r s, fx_radians c m = Ok r /\ fx_radians c n = Ok s /\ rval (cf c) r <= rval (cf c) s.
Proof.
  intros c m n W S R F B V V' L. assert (H : sin_cfg c) by (repeat split; auto; lia). apply rv_le in L; auto.
  destruct (radians_every_order c m n H ltac:(unfold holds180; lia) V V' L) as (r & s & A1 & A2 & A3). exists r, s. rewrite rv_le by auto. auto.
Qed.
(** rounding down may put radians(-x) one unit below -radians(x) *)
Theorem C185_radians_odd : forall c m, wf c = true -> sgn (ct c) = true -> cr c = false -> (3 <= cf c)%Z ->
  (bits (ct c) = 32 /\ cf c <= 23 \/ bits (ct c) = 64 /\ cf c <= 55)%Z -> valid c m = true -> valid c (- m) = true ->
  exists r s, fx_radians c m = Ok r /\ fx_radians c (- m) = Ok s /\ (s = - r \/ s = - r - 1)%Z.
Proof.
  intros c m W S R F B V V'. assert (H : sin_cfg c) by (repeat split; auto; lia).
  destruct (radians_every_odd c m H ltac:(unfold holds180; lia) V V') as (r & s & A1 & A2 & A3). exists r, s. repeat split; auto. lia.
Qed.
(** the hypotheses on m say that the result and its error fit *)
Theorem C185_degrees_order : forall c m n, wf c = true -> sgn (ct c) = true -> cr c = false -> (3 <= cf c)%Z ->
  (bits (ct c) = 32 /\ cf c <= 23 \/ bits (ct c) = 64 /\ cf c <= 55)%Z -> valid c m = true -> valid c n = true ->
  Rabs (rval (cf c) m * (180 / PI)) + (180 + 20 * Rabs (rval (cf c) m)) * ulp (cf c) <= rval (cf c) (hi (bits (ct c)) true) ->
  Rabs (rval (cf c) n * (180 / PI)) + (180 + 20 * Rabs (rval (cf c) n)) * ulp (cf c) <= rval (cf c) (hi (bits (ct c)) true) ->
  rval (cf c) m <= rval (cf c) n -> exists r s, fx_degrees c m = Ok r /\ fx_degrees c n = Ok s /\ rval (cf c) r <= rval (cf c) s.
Proof.
  intros c m n W S R F B V V' A A' L. assert (H : sin_cfg c) by (repeat split; auto; lia). apply rv_le in L; auto.
  destruct (degrees_every_order c m n H ltac:(unfold holds180; lia) V V' ltac:(unfold deg_fits, maxv; rewrite S; exact A) ltac:(unfold deg_fits, maxv; rewrite S; exact A') L)
    as (r & s & A1 & A2 & A3). exists r, s. rewrite rv_le by auto. auto.
Qed.
Theorem C185_degrees_odd : forall c m, wf c = true -> sgn (ct c) = true -> cr c = false -> (3 <= cf c)%Z ->
  (bits (ct c) = 32 /\ cf c <= 23 \/ bits (ct c) = 64 /\ cf c <= 55)%Z -> valid c m = true -> valid c (- m) = true ->
  Rabs (rval (cf c) m * (180 / PI)) + (180 + 20 * Rabs (rval (cf c) m)) * ulp (cf c) <= rval (cf c) (hi (bits (ct c)) true) ->
  exists r, fx_degrees c m = Ok r /\ fx_degrees c (- m) = Ok (- r)%Z.
Proof.
  intros c m W S R F B V V' A. assert (H : sin_cfg c) by (repeat split; auto; lia).
  apply degrees_every_odd; auto; [unfold holds180; lia|unfold deg_fits, maxv; rewrite S; exact A].
Qed.
Theorem C185_there_and_back : forall c m, wf c = true -> sgn (ct c) = true -> cr c = false -> (3 <= cf c)%Z ->
  (bits (ct c) = 32 /\ cf c <= 23 \/ bits (ct c) = 64 /\ cf c <= 55)%Z -> valid c m = true ->
  Rabs (rval (cf c) m * (180 / PI)) + (180 + 20 * Rabs (rval (cf c) m)) * ulp (cf c) <= rval (cf c) (hi (bits (ct c)) true) ->
  exists d r, fx_degrees c m = Ok d /\ fx_radians c d = Ok r /\ Rabs (rval (cf c) r - rval (cf c) m) <= (9 + Rabs (rval (cf c) m)) * ulp (cf c).
Proof.
  intros c m W S R F B V A. assert (H : sin_cfg c) by (repeat split; auto; lia).
  apply round_trip_every; auto; [unfold holds180; lia|unfold deg_fits, maxv; rewrite S; exact A].
Qed.
Example C185_case : wf Q8 = true /\ fx_degrees Q8 256 = Ok 14580%Z /\ fx_degrees Q8 (-256) = Ok (-14580)%Z /\ fx_degrees Q8 512 = Ok 29340%Z /\
  fx_radians Q8 14580 = Ok 254%Z /\ fx_radians Q8 (-14580) = Ok (-255)%Z.
Proof. vm_compute. repeat split. Qed.
Example C185_case_room : Rabs (rval 8 256 * (180 / PI)) + (180 + 20 * Rabs (rval 8 256)) * ulp 8 <= rval 8 (hi 32 true).
Proof.
  unfold rval, ulp, hi. change (IZR (2 ^ 8)) with 256. change (IZR (2 ^ (32 - 1) - 1)) with 2147483647. interval.
Qed.
Print Assumptions C185_radians_order.
Print Assumptions C185_radians_odd.
Print Assumptions C185_degrees_order.
Print Assumptions C185_degrees_odd.
Print Assumptions C185_there_and_back.
