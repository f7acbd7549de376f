(** Real-number statements about the table sine (C135, C136). *)
From Coq Require Import ZArith Bool List Reals Lra Lia.
From Interval Require Import Tactic.
From Verif Require Import Base Fixed Math Spec SpecReal RealLemmas Util LutProofs LutMore UtilThms.
Import ListNotations.
Open Scope R_scope.

Lemma Rabs_le_inv a b : Rabs a <= b -> - b <= a <= b.
Proof. unfold Rabs. destruct (Rcase_abs a); lra. Qed.
Lemma M32 : IZR (2 ^ 32) = 4294967296. Proof. f_equal; reflexivity. Qed.
Lemma half_turn_thm sin_d N x p : sin_like sin_d -> (5 <= N <= 4096)%Z -> pi_v F64 = Ok p -> (0 <= x)%Z -> valid F64 (x + p) = true ->
  exists v, lut_calc_sin sin_d N x = Ok v /\ lut_calc_sin sin_d N (x + p) = Ok (- v)%Z.
Proof.
  intros S H P X V. rewrite pi64 in P. injection P as <-. apply BaseLemmas.in_range_iff in V. change (maxv (ct F64)) with 9223372036854775807%Z in V.
  destruct (lut_flip sin_d N x S H X ltac:(lia)) as (v & A & B & _). exists v. auto.
Qed.
Lemma bounded_thm sin_d N x : sin_like sin_d -> (5 <= N <= 4096)%Z -> (0 <= x)%Z -> valid F64 x = true ->
  exists v, lut_calc_sin sin_d N x = Ok v /\ Rabs (rval 32 v) <= 1.01.
Proof.
  intros S H X V. apply BaseLemmas.in_range_iff in V. change (maxv (ct F64)) with 9223372036854775807%Z in V.
  destruct (lut_bounded sin_d N x S H ltac:(lia)) as (v & A & B). exists v. split; [exact A|]. unfold rval. rewrite M32.
  apply IZR_le in B. rewrite abs_IZR in B. unfold Rdiv. rewrite Rabs_mult, (Rabs_right (/ 4294967296)) by lra. lra.
Qed.
(** the entry made from [sin_d 3] *)
Lemma sval_real sin_d i : sin_like sin_d -> Rabs (IZR (sval sin_d i) / 4294967296 - IZR (fst (sin_d i)) / IZR (2 ^ snd (sin_d i))) <= / 4294967296.
Proof.
  intros [_ S]. destruct (S i) as [K B]. unfold sval. destruct (sin_d i) as [n k]. cbn [fst snd] in *.
  assert (P : (0 < 2 ^ k)%Z) by (apply Z.pow_pos_nonneg; lia). set (d := (2 ^ k)%Z) in *. clearbody d.
  pose proof (Z.quot_rem' (n * 4294967296) d) as Q. pose proof (Z.rem_bound_abs (n * 4294967296) d ltac:(lia)) as R.
  assert (E : IZR n * 4294967296 = IZR d * IZR (Z.quot (n * 4294967296) d) + IZR (Z.rem (n * 4294967296) d)) by (rewrite <- !mult_IZR, <- plus_IZR; f_equal; exact Q).
  assert (RB : Rabs (IZR (Z.rem (n * 4294967296) d)) <= IZR d) by (rewrite <- abs_IZR; apply IZR_le; lia).
  apply IZR_lt in P. set (q := IZR (Z.quot (n * 4294967296) d)) in *. set (r := IZR (Z.rem (n * 4294967296) d)) in *.
  replace (q / 4294967296 - IZR n / IZR d) with (- r / IZR d / 4294967296).
  - unfold Rdiv. rewrite !Rabs_mult, (Rabs_right (/ 4294967296)) by lra. rewrite Rabs_Ropp. rewrite (Rabs_right (/ IZR d)) by (left; apply Rinv_0_lt_compat; lra).
    assert (Rabs r * / IZR d <= 1). { apply (Rmult_le_reg_r (IZR d)); [lra|]. rewrite Rmult_assoc, Rinv_l by lra. lra. }
    nra.
  - replace (IZR n) with ((IZR d * q + r) / 4294967296) by (rewrite <- E; field). field. lra.
Qed.
Lemma negative_thm sin_d N x : sin_like sin_d -> (64 <= N <= 512)%Z -> - 2097152 <= rval 32 x <= - 7 * ulp 32 ->
  exists v, lut_calc_sin sin_d N x = Ok v /\ Rabs (rval 32 v - IZR (fst (sin_d 3%Z)) / IZR (2 ^ snd (sin_d 3%Z))) <= 2 * ulp 32.
Proof.
  intros S H X. unfold rval, ulp in X. rewrite M32 in X.
  assert (XZ : (-9007199254740992 <= x <= -7)%Z) by (split; apply le_IZR; lra).
  destruct (lut_neg sin_d N x S H XZ) as (d & D & E). exists (sval sin_d 3%Z - d)%Z. split; [exact E|].
  pose proof (sval_real sin_d 3%Z S) as B. destruct D as [D1 D2]. apply IZR_le in D1, D2. unfold rval, ulp. rewrite M32, minus_IZR.
  apply Rabs_le_inv in B. apply Rabs_le. lra.
Qed.
Lemma sin3_low x : -3 <= x <= -1/2 -> sin x <= -0.14.
Proof. intros X. interval with (i_bisect x, i_prec 40). Qed.
Lemma sin3_hi : 0.1411 <= sin 3 <= 0.1412. Proof. split; interval. Qed.
Lemma negative_wrong sin_d N x : sin_like sin_d -> Rabs (IZR (fst (sin_d 3%Z)) / IZR (2 ^ snd (sin_d 3%Z)) - sin 3) <= 0.001 -> (64 <= N <= 512)%Z ->
  -3 <= rval 32 x <= -1/2 -> exists v, lut_calc_sin sin_d N x = Ok v /\ 0.28 <= Rabs (rval 32 v - sin (rval 32 x)).
Proof.
  intros S A H X. destruct (negative_thm sin_d N x S H) as (v & E & B); [unfold ulp; rewrite M32; lra|]. exists v. split; [exact E|].
  pose proof (sin3_low _ X) as L. pose proof sin3_hi as U. unfold ulp in B. rewrite M32 in B. apply Rabs_le_inv in A, B.
  rewrite Rabs_right; lra.
Qed.
Lemma not_odd sin_d x : sin_like sin_d -> Rabs (IZR (fst (sin_d 3%Z)) / IZR (2 ^ snd (sin_d 3%Z)) - sin 3) <= 0.001 ->
  7 * ulp 32 <= rval 32 x <= 0.99 -> exists v, lut_calc_sin sin_d 512%Z x = Ok 0%Z /\ lut_calc_sin sin_d 512%Z (- x) = Ok v /\ 0.14 <= rval 32 v.
Proof.
  intros S A X. assert (NX : rval 32 (- x) = - rval 32 x) by (unfold rval; rewrite opp_IZR; lra).
  destruct (negative_thm sin_d 512%Z (- x) S ltac:(lia)) as (v & E & B). { rewrite NX. unfold ulp in *. rewrite M32 in *. lra. }
  exists v. split; [|split; [exact E|]].
  - apply lut_zero_real; auto; [lia| |].
    + apply le_IZR. unfold rval, ulp in X. rewrite M32 in X. lra.
    + pose proof pi_raw. lra.
  - pose proof sin3_hi as U. unfold ulp in B. rewrite M32 in B. apply Rabs_le_inv in A, B. lra.
Qed.
Lemma sin_zero3 : Rabs (IZR (fst (sin_zero 3%Z)) / IZR (2 ^ snd (sin_zero 3%Z)) - sin 3) <= 0.001.
Proof. cbn [sin_zero fst snd]. replace (IZR (2 ^ 53)) with 9007199254740992 by (f_equal; reflexivity). interval. Qed.
Lemma case135 : lut_calc_sin sin_zero 512 6442450944 = Ok 3614090359%Z /\ lut_calc_sin sin_zero 512 (6442450944 + 13493037704) = Ok (-3614090359)%Z.
Proof. split; vm_compute; reflexivity. Qed.
Lemma case136 : lut_calc_sin sin_zero 512 (-4294967296) = Ok 606118416%Z.
Proof. vm_compute; reflexivity. Qed.
