(** exp and log undo each other up to the 18% of exp, in the instantiations both of SinGen.v and of LogGen.v. *)
From Coq Require Import ZArith Reals Lia Lra Psatz Bool.
From Interval Require Import Tactic.
From Verif Require Import Base Fixed Math SpecReal BaseLemmas FixedLemmas CLemmas RealLemmas LogLaws SinGen SinSum ExpGen LogGen LogGen2 LogGen3.
Open Scope R_scope.

Lemma exp_le x y : x <= y -> exp x <= exp y.
Proof. intros [H| ->]; [left; apply exp_increasing; auto|lra]. Qed.
Section S.
Variable c : cfg.
Hypothesis HS : sin_cfg c.
Hypothesis HL : log_cfg c.
Hypothesis CR : cr c = false.
Let u := ulp (cf c).
Let v := rval (cf c).
Let top_v := rval (cf c) (maxv (ct c)).
Theorem log_exp_every m : valid c m = true -> 0 <= v m -> exp (v m) <= top_v -> (12 + 1.4 * v m) * u <= 0.016 ->
  exists a l, fx_exp c m = Ok a /\ fx_log c a = Ok l /\ -0.2232 - (6.3 + v m) * u <= v l - v m <= (6.3 + v m) * u.
Proof using HS HL CR.
  intros V P T U. pose proof (tulp c HS) as U0. fold u in U0. pose proof (g_f c HS) as F.
  assert (PZ : (0 <= m)%Z).
  { destruct (Z.le_gt_cases 0 m) as [|N]; auto. exfalso. assert (v m < 0); [|lra]. unfold v, rval. apply IZR_lt in N.
    assert (0 < / IZR (2 ^ cf c)) by exact U0. unfold Rdiv. nra. }
  destruct (exp_gen c m HS V ltac:(rewrite Rabs_pos_eq by exact P; exact T)) as [X _]. destruct (X PZ) as (a & Ea & Va & A). clear X. fold v in A. fold u in A.
  assert (A' : 0.8 * exp (v m) <= v a <= exp (v m)) by (pose proof (exp_pos (v m)); clear - A U H; split; [nra|lra]).
  pose proof (exp_pos (v m)) as EP. assert (PA : 0 < v a) by lra.
  destruct (log_gen c a HL CR Va PA) as (l & El & _ & L). fold v in L. fold u in L. exists a, l. split; [auto|]. split; [auto|].
  assert (L1 : ln (v a) <= v m) by (rewrite <- (ln_exp (v m)); apply ln_mono; lra).
  assert (L2 : v m - 0.2232 <= ln (v a)).
  { apply Rle_trans with (ln (0.8 * exp (v m))); [|apply ln_mono; lra]. rewrite ln_mult, ln_exp by lra. assert (- 0.2232 <= ln 0.8) by (clear; interval). lra. }
  assert (LA : Rabs (ln (v a)) <= v m + 0.3) by (apply Rabs_le; lra). apply Rabs_inv_le in L.
  assert ((6 + Rabs (ln (v a))) * u <= (6.3 + v m) * u) by (apply Rmult_le_compat_r; lra). lra.
Qed.
Theorem exp_log_every m : valid c m = true -> 0 < v m -> let d := (6 + Rabs (ln (v m))) * u in
  v m * exp d <= top_v -> exp d <= top_v * v m -> (12 + 1.4 * (Rabs (ln (v m)) + d)) * u <= 0.016 ->
  exists l r, fx_log c m = Ok l /\ fx_exp c l = Ok r /\
    0.8 * v m * exp (- d) - u <= v r <= 1.25 * v m * exp d /\
    (d <= ln (v m) -> v r <= v m * exp d) /\ (ln (v m) < - d -> v m * exp (- d) - u < v r).
Proof using HS HL CR.
  intros V P d T1 T2 U. pose proof (tulp c HS) as U0. fold u in U0. pose proof (g_f c HS) as F.
  destruct (log_gen c m HL CR V P) as (l & El & Vl & L). fold v in L. fold u in L. fold d in L.
  pose proof (Rabs_pos (ln (v m))) as A0. assert (D0 : 0 <= d) by (apply Rmult_le_pos; lra).
  set (b := v m) in *. set (y := v l) in *. apply Rabs_inv_le in L.
  assert (EB : exp (ln b) = b) by (apply exp_ln; auto).
  assert (E1 : exp y <= b * exp d) by (rewrite <- EB at 1; rewrite <- exp_plus; apply exp_le; lra).
  assert (E2 : b * exp (- d) <= exp y) by (rewrite <- EB at 1; rewrite <- exp_plus; apply exp_le; lra).
  assert (E3 : exp (- y) <= exp d * / b).
  { rewrite <- EB at 1. rewrite <- exp_Ropp, <- exp_plus. apply exp_le. lra. }
  assert (MX : exp (Rabs y) <= top_v).
  { unfold Rabs. destruct (Rcase_abs y); [|lra]. eapply Rle_trans; [exact E3|]. apply Rmult_le_reg_r with b; auto. rewrite Rmult_assoc, Rinv_l by lra. lra. }
  assert (YA : Rabs y <= Rabs (ln b) + d).
  { replace y with ((y - ln b) + ln b) by ring. eapply Rle_trans; [apply Rabs_triang|]. assert (Rabs (y - ln b) <= d) by (apply Rabs_le; lra). lra. }
  assert (UY : (12 + 1.4 * Rabs y) * u <= 0.016) by (eapply Rle_trans; [|exact U]; apply Rmult_le_compat_r; lra).
  assert (SG : (0 <= l)%Z -> 0 <= y).
  { intros N. unfold y, v, rval, Rdiv. apply Rmult_le_pos; [apply IZR_le; auto|]. left. exact U0. }
  assert (SN : (l < 0)%Z -> y < 0).
  { intros N. unfold y, v, rval, Rdiv. apply IZR_lt in N. assert (0 < / IZR (2 ^ cf c)) by exact U0. nra. }
  pose proof (exp_pos y) as EY. pose proof (exp_pos (- d)) as ED. pose proof (exp_pos d) as EDD.
  destruct (exp_gen c l HS Vl MX) as [X1 X2]. fold v in X1, X2. fold u in X1, X2. fold y in X1, X2.
  destruct (Z.le_gt_cases 0 l) as [N|N].
  - destruct (X1 N) as (r & Er & _ & R). specialize (SG N). rewrite Rabs_pos_eq in UY by auto. exists l, r. split; [auto|]. split; [auto|].
    assert (R1 : 0.8 * exp y <= v r) by (eapply Rle_trans; [|exact (proj1 R)]; apply Rmult_le_compat_r; lra).
    assert (0 < b * exp d) by (apply Rmult_lt_0_compat; auto).
    split; [split; lra|]. split; intros; lra.
  - destruct (X2 N UY) as (r & Er & _ & R). specialize (SN N). exists l, r. split; [auto|]. split; [auto|].
    assert (0 < b * exp (- d)) by (apply Rmult_lt_0_compat; auto).
    split; [split; lra|]. split; intros; lra.
Qed.
End S.
