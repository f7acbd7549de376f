(** Real-number facts shared by the accuracy proofs. *)
From Coq Require Import ZArith Reals Lia Lra Psatz.
From Verif Require Import SpecReal.
Open Scope R_scope.

Lemma pow2_gt0 f : (0 <= f)%Z -> 0 < IZR (2 ^ f).
Proof. intros. apply IZR_lt. apply Z.pow_pos_nonneg; lia. Qed.

(** floor division *)
Lemma div_real a b : (0 < b)%Z -> IZR (a / b) <= IZR a / IZR b < IZR (a / b) + 1.
Proof.
  intros Hb. assert (B : 0 < IZR b) by (apply IZR_lt; auto).
  pose proof (Z.div_mod a b ltac:(lia)) as E. pose proof (Z.mod_pos_bound a b Hb) as M.
  assert (IZR a = IZR b * IZR (a / b) + IZR (a mod b)) by (rewrite <- mult_IZR, <- plus_IZR; f_equal; auto).
  assert (0 <= IZR (a mod b)) by (apply IZR_le; lia). assert (IZR (a mod b) < IZR b) by (apply IZR_lt; lia).
  split.
  - apply Rmult_le_reg_r with (IZR b); auto. unfold Rdiv. rewrite Rmult_assoc, Rinv_l by lra. lra.
  - apply Rmult_lt_reg_r with (IZR b); auto. unfold Rdiv. rewrite Rmult_assoc, Rinv_l by lra. lra.
Qed.
(** truncating division *)
Lemma quot_real a b : b <> 0%Z -> Rabs (IZR (Z.quot a b) - IZR a / IZR b) < 1.
Proof.
  intros Hb. pose proof (Z.quot_rem a b Hb) as E. pose proof (Z.rem_bound_abs a b Hb) as M.
  assert (B : IZR b <> 0) by (apply not_0_IZR; auto).
  assert (E' : IZR a = IZR b * IZR (Z.quot a b) + IZR (Z.rem a b)) by (rewrite <- mult_IZR, <- plus_IZR; f_equal; auto).
  replace (IZR (Z.quot a b) - IZR a / IZR b) with (- (IZR (Z.rem a b) / IZR b)) by (rewrite E'; field; auto).
  rewrite Rabs_Ropp. unfold Rdiv. rewrite Rabs_mult, Rabs_inv.
  assert (0 < Rabs (IZR b)) by (apply Rabs_pos_lt; auto).
  apply Rmult_lt_reg_r with (Rabs (IZR b)); auto. rewrite Rmult_assoc, Rinv_l by lra.
  rewrite Rmult_1_l, Rmult_1_r, <- !abs_IZR. apply IZR_lt. auto.
Qed.

Lemma Rabs_inv_le x d : Rabs x <= d -> - d <= x <= d.
Proof. intros. pose proof (Rle_abs x). pose proof (Rle_abs (- x)). rewrite Rabs_Ropp in *. lra. Qed.

(** ln (1 + x) <= x *)
Lemma ln_1p x : 0 <= x -> ln (1 + x) <= x.
Proof.
  intros H. destruct (Req_dec x 0) as [->|N]; [rewrite Rplus_0_r, ln_1; lra|].
  rewrite <- (ln_exp x) at 2. left. apply ln_increasing; [lra|]. apply exp_ineq1. lra.
Qed.
Lemma ln_mono x y : 0 < x -> x <= y -> ln x <= ln y.
Proof. intros H [L|E]; [left; apply ln_increasing; auto|subst; lra]. Qed.
Lemma ln2_pos : 0 < ln 2.
Proof. rewrite <- ln_1. apply ln_increasing; lra. Qed.
Lemma log2r_mono x y : 0 < x -> x <= y -> log2r x <= log2r y.
Proof.
  intros. unfold log2r. apply Rmult_le_compat_r; [left; apply Rinv_0_lt_compat, ln2_pos|]. apply ln_mono; auto.
Qed.
Lemma log2r_mult x y : 0 < x -> 0 < y -> log2r (x * y) = log2r x + log2r y.
Proof. intros. unfold log2r. rewrite ln_mult by auto. field. pose proof ln2_pos; lra. Qed.
Lemma log2r_div x y : 0 < x -> 0 < y -> log2r (x / y) = log2r x - log2r y.
Proof. intros. unfold log2r. change (x / y) with (x * / y). rewrite ln_mult, ln_Rinv by (auto using Rinv_0_lt_compat). field. pose proof ln2_pos; lra. Qed.
Lemma log2r_2 : log2r 2 = 1.
Proof. unfold log2r. field. pose proof ln2_pos; lra. Qed.
Lemma log2r_1p x : 0 <= x -> log2r (1 + x) <= x / ln 2.
Proof.
  intros. unfold log2r. apply Rmult_le_compat_r; [left; apply Rinv_0_lt_compat, ln2_pos|]. apply ln_1p; auto.
Qed.
Lemma log2r_pow2 k : (0 <= k)%Z -> log2r (IZR (2 ^ k)) = IZR k.
Proof.
  intros Hk. pattern k. apply natlike_ind; auto.
  - change (2 ^ 0)%Z with 1%Z. unfold log2r. rewrite ln_1. unfold Rdiv. ring.
  - intros x Hx IH. rewrite Z.pow_succ_r by auto. rewrite mult_IZR, log2r_mult, IH, log2r_2.
    + rewrite succ_IZR. ring.
    + lra.
    + apply pow2_gt0; auto.
Qed.
