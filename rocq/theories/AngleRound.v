(** Converting an angle there and back. *)
From Coq Require Import ZArith Reals Lra Lia Bool.
From Interval Require Import Tactic.
From Verif Require Import Base Fixed Math Spec SpecReal StdProofs RealThms NumThms ExpThms.
Open Scope R_scope.

Lemma rt_alg k k' e1 e2 r1 r2 x d y : 0 < k -> 0 < k' -> k * k' = 1 -> 0 <= e1 -> 0 <= e2 -> 0 <= r1 -> 0 <= r2 ->
  Rabs (d - x * k) <= e1 + r1 * Rabs (x * k) -> Rabs (y - d * k') <= e2 + r2 * Rabs (d * k') ->
  Rabs (y - x) <= e2 + e1 * k' * (1 + r2) + (r1 + r2 + r1 * r2) * Rabs x.
Proof.
  intros K K' KK E1 E2 R1 R2 H1 H2.
  assert (A : Rabs (d * k' - x) <= e1 * k' + r1 * Rabs x).
  { replace (d * k' - x) with ((d - x * k) * k') by (rewrite <- (Rmult_1_r x) at 2; rewrite <- KK; ring).
    rewrite Rabs_mult, (Rabs_pos_eq k') by lra. replace (Rabs x) with (Rabs (x * k) * k') by (rewrite Rabs_mult, (Rabs_pos_eq k) by lra; rewrite Rmult_assoc, KK; ring).
    replace (e1 * k' + r1 * (Rabs (x * k) * k')) with ((e1 + r1 * Rabs (x * k)) * k') by ring. apply Rmult_le_compat_r; lra. }
  assert (B : Rabs (d * k') <= Rabs x + (e1 * k' + r1 * Rabs x)).
  { replace (d * k') with (x + (d * k' - x)) by ring. eapply Rle_trans; [apply Rabs_triang|]. lra. }
  replace (y - x) with ((y - d * k') + (d * k' - x)) by ring. eapply Rle_trans; [apply Rabs_triang|].
  assert (r2 * Rabs (d * k') <= r2 * (Rabs x + (e1 * k' + r1 * Rabs x))) by (apply Rmult_le_compat_l; auto). lra.
Qed.
Lemma kk : 180 / PI * (PI / 180) = 1. Proof. field. apply PI_neq0. Qed.
Lemma kk' : PI / 180 * (180 / PI) = 1. Proof. field. apply PI_neq0. Qed.
Lemma kp : 0 < 180 / PI. Proof. pose proof PI_RGT_0. apply Rdiv_lt_0_compat; lra. Qed.
Lemma kp' : 0 < PI / 180. Proof. pose proof PI_RGT_0. lra. Qed.
Lemma ulp_pos f : (0 <= f)%Z -> 0 <= ulp f.
Proof. intros. unfold ulp. apply Rlt_le, Rinv_0_lt_compat. apply IZR_lt. apply Z.pow_pos_nonneg; lia. Qed.

Theorem rad_of_deg32 m : valid F32 m = true -> Rabs (rval 16 m * (180 / PI)) <= 32760 ->
  exists d r, fx_degrees F32 m = Ok d /\ fx_radians F32 d = Ok r /\
  Rabs (rval 16 r - rval 16 m) <= 8.15 * ulp 16 + 4.21e-6 * Rabs (rval 16 m).
Proof.
  intros V B. destruct (degrees32 m V B) as (d & E1 & V1 & A1). destruct (radians32 d V1) as (r & E2 & V2 & A2).
  exists d, r. repeat split; auto. pose proof (ulp_pos 16 ltac:(lia)) as U.
  pose proof (rt_alg _ _ (180 * ulp 16) (5 * ulp 16) 2.1e-6 2.1e-6 _ _ _ kp kp' kk ltac:(lra) ltac:(lra) ltac:(lra) ltac:(lra) A1 A2) as H.
  eapply Rle_trans; [apply H|]. apply Rplus_le_compat.
  - replace (5 * ulp 16 + 180 * ulp 16 * (PI / 180) * (1 + 2.1e-6)) with ((5 + PI * (1 + 2.1e-6)) * ulp 16) by field.
    apply Rmult_le_compat_r; auto. interval.
  - apply Rmult_le_compat_r; [apply Rabs_pos|]. lra.
Qed.
Theorem deg_of_rad32 m : valid F32 m = true ->
  exists r, fx_radians F32 m = Ok r /\ (Rabs (rval 16 m) <= 32400 -> exists d, fx_degrees F32 r = Ok d /\
  Rabs (rval 16 d - rval 16 m) <= 466.5 * ulp 16 + 4.21e-6 * Rabs (rval 16 m)).
Proof.
  intros V. destruct (radians32 m V) as (r & E1 & V1 & A1). exists r. split; auto. intros Bm.
  pose proof (ulp_pos 16 ltac:(lia)) as U. assert (Ul : ulp 16 <= 1.6e-5) by (unfold ulp; simpl; lra).
  assert (Hd : Rabs (rval 16 r * (180 / PI)) <= 32760).
  { assert (K : Rabs (rval 16 r * (180 / PI) - rval 16 m) <= 5 * ulp 16 * (180 / PI) + 2.1e-6 * Rabs (rval 16 m)).
    { replace (rval 16 r * (180 / PI) - rval 16 m) with ((rval 16 r - rval 16 m * (PI / 180)) * (180 / PI)) by (field; apply PI_neq0).
      rewrite Rabs_mult, (Rabs_pos_eq (180 / PI)) by (apply Rlt_le, kp).
      replace (2.1e-6 * Rabs (rval 16 m)) with (2.1e-6 * Rabs (rval 16 m * (PI / 180)) * (180 / PI)).
      - rewrite <- Rmult_plus_distr_r. apply Rmult_le_compat_r; [apply Rlt_le, kp|exact A1].
      - rewrite Rabs_mult, (Rabs_pos_eq (PI / 180)) by (apply Rlt_le, kp'). field. apply PI_neq0. }
    assert (5 * ulp 16 * (180 / PI) <= 5 * 1.6e-5 * 58).
    { apply Rmult_le_compat; [lra|apply Rlt_le, kp|lra|interval]. }
    replace (rval 16 r * (180 / PI)) with (rval 16 m + (rval 16 r * (180 / PI) - rval 16 m)) by ring.
    eapply Rle_trans; [apply Rabs_triang|]. lra. }
  destruct (degrees32 r V1 Hd) as (d & E2 & V2 & A2). exists d. split; auto.
  pose proof (rt_alg _ _ (5 * ulp 16) (180 * ulp 16) 2.1e-6 2.1e-6 _ _ _ kp' kp kk' ltac:(lra) ltac:(lra) ltac:(lra) ltac:(lra) A1 A2) as H.
  eapply Rle_trans; [apply H|]. apply Rplus_le_compat.
  - replace (180 * ulp 16 + 5 * ulp 16 * (180 / PI) * (1 + 2.1e-6)) with ((180 + 5 * (180 / PI) * (1 + 2.1e-6)) * ulp 16) by (field; apply PI_neq0).
    apply Rmult_le_compat_r; auto. interval. 
  - apply Rmult_le_compat_r; [apply Rabs_pos|]. lra.
Qed.
Theorem rad_of_deg64 m : valid F64 m = true -> Rabs (rval 32 m * (180 / PI)) <= 2147483647 ->
  exists d r, fx_degrees F64 m = Ok d /\ fx_radians F64 d = Ok r /\
  Rabs (rval 32 r - rval 32 m) <= 8.15 * ulp 32 + 8.01e-11 * Rabs (rval 32 m).
Proof.
  intros V B. destruct (degrees64 m V B) as (d & E1 & V1 & A1). destruct (radians64 d V1) as (r & E2 & V2 & A2).
  exists d, r. repeat split; auto. pose proof (ulp_pos 32 ltac:(lia)) as U.
  pose proof (rt_alg _ _ (180 * ulp 32) (5 * ulp 32) 4e-11 4e-11 _ _ _ kp kp' kk ltac:(lra) ltac:(lra) ltac:(lra) ltac:(lra) A1 A2) as H.
  eapply Rle_trans; [apply H|]. apply Rplus_le_compat.
  - replace (5 * ulp 32 + 180 * ulp 32 * (PI / 180) * (1 + 4e-11)) with ((5 + PI * (1 + 4e-11)) * ulp 32) by field.
    apply Rmult_le_compat_r; auto. interval.
  - apply Rmult_le_compat_r; [apply Rabs_pos|]. lra.
Qed.
