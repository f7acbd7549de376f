(** Bounds for Euler's constant, and the constant egamma of numbers.hpp. *)
From Coq Require Import ZArith Reals Lra Lia.
From Coquelicot Require Import Coquelicot.
From Interval Require Import Tactic.
From Verif Require Import Base Fixed Numbers Spec SpecReal SpecConst NumThms.
Open Scope R_scope.

(** the sequence 1 + 1/2 + ... + 1/(n+1) *)
Definition H (n : nat) : R := sum_f_R0 (fun k => / INR (S k)) n.
(** corrections *)
Definition ca (x : R) : R := / (2 * x) - / (12 * x ^ 2).
Definition A (n : nat) : R := H n - ln (INR (S n)) - ca (INR (S n)).
Definition B (n : nat) : R := A n - / (120 * INR (S n) ^ 4).
Definition g (t : R) : R := ln (1 + t) - t / 2 - t / (2 * (1 + t)) + t ^ 2 / 12 - t ^ 2 / (12 * (1 + t) ^ 2).
Definition g' (t : R) : R := t ^ 4 / (6 * (1 + t) ^ 3).
Lemma g_der t : 0 <= t -> is_derive g t (g' t).
Proof.
  intros T. unfold g, g'. auto_derive.
  - repeat split; try lra; apply Rgt_not_eq; nra.
  - field. lra.
Qed.
Definition h (t : R) : R := g t - (t ^ 4 - (t / (1 + t)) ^ 4) / 120.
Definition h' (t : R) : R := t ^ 3 * (- 5 * t ^ 3 - 5 * t ^ 4 - t ^ 5) / (30 * (1 + t) ^ 5).
Lemma h_der t : 0 <= t -> is_derive h t (h' t).
Proof.
  intros T. unfold h. replace (h' t) with (minus (g' t) ((4 * t ^ 3 - 4 * t ^ 3 / (1 + t) ^ 5) / 120)).
  - apply (is_derive_minus g (fun t => (t ^ 4 - (t / (1 + t)) ^ 4) / 120)); [apply g_der, T|]. auto_derive; [lra|]. field. lra.
  - unfold minus, plus, opp, g', h'. simpl. field. lra.
Qed.
Lemma mono_from0 (f f' : R -> R) t : 0 <= t -> (forall x, 0 <= x -> is_derive f x (f' x)) -> f 0 = 0 ->
  exists c, 0 <= c <= t /\ f t = f' c * t.
Proof.
  intros T D Z. destruct (MVT_gen f 0 t f') as (c & C & E).
  - rewrite Rmin_left, Rmax_right by lra. intros x X. apply D. lra.
  - rewrite Rmin_left, Rmax_right by lra. intros x X. apply continuity_pt_filterlim. apply (ex_derive_continuous f). exists (f' x). apply D. lra.
  - rewrite Rmin_left, Rmax_right in C by lra. exists c. split; [exact C|]. rewrite Z, !Rminus_0_r in E. exact E.
Qed.
Lemma g_pos t : 0 <= t -> 0 <= g t.
Proof.
  intros T. destruct (mono_from0 g g' t T g_der) as (c & C & E).
  - unfold g. rewrite Rplus_0_r, ln_1. field.
  - rewrite E. apply Rmult_le_pos; [|exact T]. unfold g'. apply Rdiv_le_0_compat; [apply pow_le; lra|]. assert (0 < (1 + c) ^ 3) by (apply pow_lt; lra). lra.
Qed.
Lemma h_neg t : 0 <= t -> h t <= 0.
Proof.
  intros T. destruct (mono_from0 h h' t T h_der) as (c & C & E).
  - unfold h, g. rewrite Rplus_0_r, ln_1. field.
  - rewrite E. assert (h' c <= 0); [|nra]. unfold h'. assert (0 < (1 + c) ^ 5) by (apply pow_lt; lra).
    assert (0 <= c ^ 3) by (apply pow_le; lra). assert (0 <= c ^ 4) by (apply pow_le; lra). assert (0 <= c ^ 5) by (apply pow_le; lra).
    apply Rmult_le_reg_r with (30 * (1 + c) ^ 5); [lra|]. unfold Rdiv. rewrite Rmult_assoc, Rinv_l by lra. nra.
Qed.
Lemma H_S n : H (S n) = H n + / INR (S (S n)). Proof. reflexivity. Qed.
Lemma INRS n : INR (S (S n)) = INR (S n) + 1. Proof. apply S_INR. Qed.
Lemma pos n : 0 < INR (S n). Proof. apply lt_0_INR. lia. Qed.
Lemma ln_step x : 0 < x -> ln (x + 1) - ln x = ln (1 + / x).
Proof. intros X. replace (x + 1) with (x * (1 + / x)) by (field; lra). rewrite ln_mult; [ring|lra|]. pose proof (Rinv_0_lt_compat _ X). lra. Qed.
Lemma A_dec : Un_decreasing A.
Proof.
  intros n. pose proof (pos n) as P. pose proof (g_pos (/ INR (S n)) (Rlt_le _ _ (Rinv_0_lt_compat _ P))) as G.
  assert (E : A n - A (S n) = g (/ INR (S n))).
  { unfold A, ca, g. rewrite H_S, INRS. rewrite <- (ln_step _ P). set (x := INR (S n)) in *. clearbody x. field. lra. }
  lra.
Qed.
Lemma B_inc : Un_growing B.
Proof.
  intros n. pose proof (pos n) as P. pose proof (h_neg (/ INR (S n)) (Rlt_le _ _ (Rinv_0_lt_compat _ P))) as G.
  assert (E : B n - B (S n) = h (/ INR (S n))).
  { unfold B, A, ca, h, g. rewrite H_S, INRS. rewrite <- (ln_step _ P). set (x := INR (S n)) in *. clearbody x. field. lra. }
  lra.
Qed.
(** the corrections vanish *)
Lemma inv_cv : Un_cv (fun n => / INR (S n)) 0.
Proof.
  intros e E. destruct (archimed_cor1 e E) as (N & N1 & N2). exists N. intros n L. unfold R_dist. rewrite Rminus_0_r, Rabs_right.
  - apply Rle_lt_trans with (/ INR N); [|exact N1]. apply Rinv_le_contravar; [apply lt_0_INR; lia|]. apply le_INR. lia.
  - pose proof (Rinv_0_lt_compat _ (pos n)). lra.
Qed.
Lemma squeeze0 (u : nat -> R) : (forall n, 0 <= u n <= / INR (S n)) -> Un_cv u 0.
Proof.
  intros S e E. destruct (inv_cv e E) as (N & HN). exists N. intros n L. specialize (HN n L). unfold R_dist in *. rewrite Rminus_0_r in *.
  specialize (S n). rewrite Rabs_right in * by lra. lra.
Qed.
Lemma ca_cv : Un_cv (fun n => ca (INR (S n))) 0.
Proof.
  apply squeeze0. intros n. pose proof (pos n) as P. assert (1 <= INR (S n)) by (rewrite S_INR; pose proof (pos_INR n); lra).
  set (x := INR (S n)) in *. clearbody x. unfold ca. replace (/ (2 * x) - / (12 * x ^ 2)) with (/ x * ((6 * x - 1) / (12 * x))) by (field; lra).
  pose proof (Rinv_0_lt_compat _ P). assert (0 <= (6 * x - 1) / (12 * x) <= 1); [|nra].
  split; [apply Rdiv_le_0_compat; lra|]. apply Rmult_le_reg_r with (12 * x); [lra|]. unfold Rdiv. rewrite Rmult_assoc, Rinv_l by lra. lra.
Qed.
Lemma cb_cv : Un_cv (fun n => / (120 * INR (S n) ^ 4)) 0.
Proof.
  apply squeeze0. intros n. pose proof (pos n) as P. assert (1 <= INR (S n)) by (rewrite S_INR; pose proof (pos_INR n); lra).
  set (x := INR (S n)) in *. clearbody x. assert (x <= 120 * x ^ 4). { assert (1 <= x ^ 3) by (apply pow_R1_Rle; lra). simpl in *. nra. }
  split; [apply Rlt_le, Rinv_0_lt_compat; lra|apply Rinv_le_contravar; lra].
Qed.
Section G.
Variable gam : R.
Hypothesis HG : is_euler_gamma gam.
Lemma A_cv : Un_cv A gam.
Proof using HG. rewrite <- (Rminus_0_r gam). apply (CV_minus (fun n => H n - ln (INR (S n))) (fun n => ca (INR (S n)))); [exact HG|apply ca_cv]. Qed.
Lemma B_cv : Un_cv B gam.
Proof using HG. rewrite <- (Rminus_0_r gam). apply (CV_minus A (fun n => / (120 * INR (S n) ^ 4))); [apply A_cv|apply cb_cv]. Qed.
Lemma gamma_between n : B n <= gam <= A n.
Proof using HG. split; [apply (growing_ineq B), B_cv; apply B_inc|apply (decreasing_ineq A), A_cv; apply A_dec]. Qed.
End G.
(** the limit exists *)
Lemma gamma_exists : exists gam, is_euler_gamma gam.
Proof.
  destruct (decreasing_cv A) as (l & L).
  - apply A_dec.
  - exists (- B 0). intros x (n & ->). unfold opp_seq. assert (B 0 <= B n) by (apply Rge_le, growing_prop; [apply B_inc|lia]).
    assert (B n <= A n); [|lra]. unfold B. pose proof (pos n). assert (0 < 120 * INR (S n) ^ 4) by (assert (0 < INR (S n) ^ 4) by (apply pow_lt; auto); lra). pose proof (Rinv_0_lt_compat _ H2). lra.
  - exists l. unfold is_euler_gamma. rewrite <- (Rplus_0_r l).
    apply (Un_cv_ext (fun n => A n + ca (INR (S n)))); [intros n; unfold A, H; ring|]. apply CV_plus; [exact L|apply ca_cv].
Qed.
(** rational bounds for H: sums of floor(2^80 / k) *)
Fixpoint hz (n : nat) : Z := match n with O => 2 ^ 80 | S m => hz m + 2 ^ 80 / Z.of_nat (S n) end.
Lemma hz_bound n : IZR (hz n) / 2 ^ 80 <= H n <= (IZR (hz n) + INR n) / 2 ^ 80.
Proof.
  induction n as [|n IH].
  - unfold H. simpl sum_f_R0. simpl hz. rewrite Rinv_1. replace (IZR (Z.pow_pos 2 80)) with (2 ^ 80). 2: { rewrite (pow_IZR 2 80). reflexivity. } simpl INR. split; right; field.
  - rewrite H_S. change (hz (S n)) with (hz n + 2 ^ 80 / Z.of_nat (S (S n)))%Z. rewrite plus_IZR.
    assert (Q : IZR (2 ^ 80 / Z.of_nat (S (S n))) <= 2 ^ 80 * / INR (S (S n)) <= IZR (2 ^ 80 / Z.of_nat (S (S n))) + 1).
    { pose proof (pos (S n)) as P. assert (D : IZR (2 ^ 80) = 2 ^ 80) by (rewrite (pow_IZR 2 80); reflexivity).
      pose proof (Z.mul_div_le (2 ^ 80) (Z.of_nat (S (S n))) ltac:(lia)) as L1. pose proof (Z.mul_succ_div_gt (2 ^ 80) (Z.of_nat (S (S n))) ltac:(lia)) as L2.
      apply IZR_le in L1. apply IZR_lt in L2. rewrite mult_IZR, <- INR_IZR_INZ, D in L1, L2. rewrite succ_IZR in L2. set (q := IZR (2 ^ 80 / _)) in *. set (x := INR (S (S n))) in *. clearbody q x.
      split; apply Rmult_le_reg_l with x; try exact P; (replace (x * (2 ^ 80 * / x)) with (2 ^ 80) by (field; lra)); lra. }
    rewrite (S_INR n). assert (P2 : 0 < 2 ^ 80) by (apply pow_lt; lra). set (w := 2 ^ 80) in *. clearbody w.
    set (q := IZR (_ / _)) in *. set (r := / INR (S (S n))) in *. clearbody q r. destruct IH as [I1 I2].
    assert (E : r = (w * r) / w) by (field; lra). unfold Rdiv in *. pose proof (Rinv_0_lt_compat _ P2). set (v := / w) in *. rewrite E. clearbody v. split; nra.
Qed.
Lemma gamma_value gam : is_euler_gamma gam -> 0.5772156649 <= gam <= 0.57721566495.
Proof.
  intros HG. destruct (gamma_between gam HG 255) as [L U]. unfold B, A, ca in *.
  pose proof (hz_bound 255) as HB. let z := eval vm_compute in (hz 255) in replace (hz 255) with z in HB by (vm_compute; reflexivity).
  rewrite !(INR_IZR_INZ 256) in *. change (Z.of_nat 256) with 256%Z in *. rewrite INR_IZR_INZ in HB. change (Z.of_nat 255) with 255%Z in HB.
  set (x := H 255) in *. clearbody x. destruct HB as [H1 H2]. split.
  - eapply Rle_trans; [|exact L]. apply Rle_trans with (IZR (hz 255) / 2 ^ 80 - ln 256 - (/ (2 * 256) - / (12 * 256 ^ 2)) - / (120 * 256 ^ 4)).
    + let z := eval vm_compute in (hz 255) in replace (hz 255) with z by (vm_compute; reflexivity). interval with (i_prec 100).
    + let z := eval vm_compute in (hz 255) in replace (hz 255) with z by (vm_compute; reflexivity). lra.
  - eapply Rle_trans; [exact U|]. eapply Rle_trans; [apply Rplus_le_compat_r, Rplus_le_compat_r, H2|]. interval with (i_prec 100).
Qed.
Lemma egamma_trunc gam : is_euler_gamma gam -> trunc_const 16 (egamma_v F32) gam /\ trunc_const 32 (egamma_v F64) gam.
Proof.
  intros HG. pose proof (gamma_value gam HG) as V. split.
  - exists 37828%Z. split; [vm_compute; reflexivity|]. unfold rval, ulp. change (2 ^ 16)%Z with 65536%Z. lra.
  - exists 2479122403%Z. split; [vm_compute; reflexivity|]. unfold rval, ulp. change (2 ^ 32)%Z with 4294967296%Z. lra.
Qed.
