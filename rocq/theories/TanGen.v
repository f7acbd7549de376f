(** The error of tan, and tan against atan, for the instantiations of SinGen.v. *)
From Coq Require Import ZArith Reals Lia Lra Psatz Bool.
From Interval Require Import Tactic.
From Verif Require Import Base Fixed Math Spec SpecReal BaseLemmas FixedLemmas CLemmas RealLemmas StdProofs SinProofs SinPoly SinThms AsinAcc CordicThms InvTrig SinGen SinGen2 AtanGen SinSum.
Open Scope R_scope.

(** a quotient of approximations *)
Lemma quot_near s S k C es ek : Rabs (s - S) <= es -> Rabs (k - C) <= ek -> Rabs S <= 1 -> 0.1 <= Rabs C <= 1 -> ek <= 0.025 ->
  0.75 * Rabs C <= Rabs k /\ Rabs (s / k - S / C) <= 1.34 * (es + ek) / (C * C).
Proof.
  intros A B HS HC L. pose proof (Rabs_triang_inv C k) as T. rewrite Rabs_minus_sym in T.
  assert (K : 0.75 * Rabs C <= Rabs k) by lra. split; [exact K|].
  assert (K0 : k <> 0) by (intros ->; rewrite Rabs_R0 in K; lra). assert (C0 : C <> 0) by (intros ->; rewrite Rabs_R0 in HC; lra).
  replace (s / k - S / C) with (((s - S) * C - S * (k - C)) / (k * C)) by (field; split; auto).
  assert (N : Rabs ((s - S) * C - S * (k - C)) <= es + ek).
  { unfold Rminus at 1. eapply Rle_trans; [apply Rabs_triang|]. rewrite Rabs_Ropp, !Rabs_mult.
    pose proof (Rabs_pos (s - S)). pose proof (Rabs_pos (k - C)). pose proof (Rabs_pos S). nra. }
  pose proof (Rabs_pos ((s - S) * C - S * (k - C))) as NP. set (n := (s - S) * C - S * (k - C)) in *. clearbody n.
  unfold Rdiv. rewrite Rabs_mult, Rabs_inv, Rabs_mult.
  replace (C * C) with (Rabs C * Rabs C) by (rewrite <- Rabs_mult; apply Rabs_pos_eq; nra).
  set (a := Rabs C) in *. set (b := Rabs k) in *. clearbody a b. clear - N NP HC K.
  assert (AA : 0 < a * a) by nra. assert (BA : 0.75 * (a * a) <= b * a) by nra.
  assert (I : / (b * a) <= 1.34 * / (a * a)).
  { apply Rle_trans with (/ (0.75 * (a * a))); [apply Rinv_le_contravar; lra|]. rewrite Rinv_mult. pose proof (Rinv_0_lt_compat _ AA). lra. }
  pose proof (Rinv_0_lt_compat _ AA). apply Rle_trans with ((es + ek) * (1.34 * / (a * a))); [|lra].
  apply Rmult_le_compat; auto. left. apply Rinv_0_lt_compat. lra.
Qed.
Lemma quot_unit f s k : (0 <= f)%Z -> k <> 0%Z -> Rabs (rval f (Z.quot (s * 2 ^ f) k) - rval f s / rval f k) < ulp f.
Proof.
  intros F K. assert (P : 0 < IZR (2 ^ f)) by (apply IZR_lt, Z.pow_pos_nonneg; lia). assert (K0 : IZR k <> 0) by (apply not_0_IZR; auto).
  pose proof (quot_real (s * 2 ^ f) k K) as Q. rewrite mult_IZR in Q. unfold rval, ulp.
  replace (IZR (Z.quot (s * 2 ^ f) k) / IZR (2 ^ f) - IZR s / IZR (2 ^ f) / (IZR k / IZR (2 ^ f)))
    with ((IZR (Z.quot (s * 2 ^ f) k) - IZR s * IZR (2 ^ f) / IZR k) * / IZR (2 ^ f)) by (field; split; auto; lra).
  rewrite Rabs_mult, (Rabs_pos_eq (/ _)) by (left; apply Rinv_0_lt_compat; lra).
  rewrite <- (Rmult_1_l (/ IZR (2 ^ f))) at 2. apply Rmult_lt_compat_r; [apply Rinv_0_lt_compat; lra|exact Q].
Qed.

Section S.
Variable c : cfg.
Hypothesis HS : sin_cfg c.
Let u := ulp (cf c).
(** wherever |cos x| >= 0.1 and the rounding error of cos is small against it *)
Theorem tan_acc_every m : valid c m = true -> (- top c < m)%Z -> 0.1 <= Rabs (cos (rval (cf c) m)) ->
  (17 + Rabs (rval (cf c) m) / 6) * u <= 0.0249 ->
  exists r, fx_tan c m = Ok r /\ valid c r = true /\
    (0 <= rval (cf c) m -> Rabs (rval (cf c) r - tan (rval (cf c) m)) <= (1e-5 + (42 + Rabs (rval (cf c) m) / 2) * u) / (cos (rval (cf c) m) * cos (rval (cf c) m)) + u) /\
    Rabs (rval (cf c) r - tan (rval (cf c) m)) <= (4.3e-4 + (42 + Rabs (rval (cf c) m) / 2) * u) / (cos (rval (cf c) m) * cos (rval (cf c) m)) + u.
Proof using HS.
  intros V N LC LU. assert (LO : lo (bits (ct c)) true = (- top c)%Z) by reflexivity. pose proof (tulp c HS) as U. fold u in U.
  destruct (tan_gen c m HS V ltac:(rewrite LO; exact N)) as (s & k & Es & Ek & _ & T & _).
  destruct (sin_gen c m HS V ltac:(rewrite LO; exact N)) as (s' & Es' & _ & Rs & S1 & S2). rewrite Es in Es'. injection Es' as <-.
  destruct (cos_gen c m HS V) as (k' & Ek' & _ & _ & K1 & _). rewrite Ek in Ek'. injection Ek' as <-. fold u in Rs, S1, S2, K1.
  pose proof (g_M c HS) as HM. pose proof (g_top c HS) as HT. pose proof (g_f c HS) as HF. set (x := rval (cf c) m) in *.
  pose proof (Rabs_pos x) as X0. assert (U17 : u <= 0.0015) by (clear - LU U X0; nra).
  assert (K : Rabs (rval (cf c) k - cos x) <= 3.7e-6 + (17 + Rabs x / 6) * u) by (apply K1; lra).
  pose proof (cos_abs x) as CA. pose proof (sin_abs x) as SA.
  assert (E1 : forall es, Rabs (rval (cf c) s - sin x) <= es -> 0.75 * Rabs (cos x) <= Rabs (rval (cf c) k) /\
    Rabs (rval (cf c) s / rval (cf c) k - sin x / cos x) <= 1.34 * (es + (3.7e-6 + (17 + Rabs x / 6) * u)) / (cos x * cos x)).
  { intros es H. apply quot_near; auto. lra. }
  destruct (E1 _ S2) as [KL Q2].
  assert (P : 0 < IZR (2 ^ cf c)) by (apply IZR_lt; lia).
  assert (RK : Rabs (rval (cf c) k) = Rabs (IZR k) * u). { unfold rval, u, ulp, Rdiv. rewrite Rabs_mult, (Rabs_pos_eq (/ _)); auto. left. apply Rinv_0_lt_compat; auto. }
  assert (KB : (1 < Z.abs k)%Z).
  { apply lt_IZR. rewrite abs_IZR. rewrite RK in KL. clear - KL LC U U17. set (a := Rabs (IZR k)) in *. clearbody a. nra. }
  assert (K0 : k <> 0%Z) by lia.
  pose proof (quot_unit (cf c) s k ltac:(lia) K0) as QU. fold u in QU. set (q := Z.quot (s * 2 ^ cf c) k) in *.
  assert (BQ : Rabs (rval (cf c) q) <= 15).
  { assert (B : Rabs (rval (cf c) s / rval (cf c) k) <= 14.9).
    { unfold Rdiv. rewrite Rabs_mult, Rabs_inv.
      assert (KP : 0.075 <= Rabs (rval (cf c) k)) by lra. set (b := Rabs (rval (cf c) k)) in *.
      apply Rmult_le_reg_r with b; [lra|]. rewrite Rmult_assoc, Rinv_l by lra. rewrite Rmult_1_r. lra. }
    pose proof (near _ _ _ _ (Rlt_le _ _ QU) B). lra. }
  assert (VQ : valid c q = true).
  { apply (g_valid c HS). apply Rabs_inv_le in BQ. unfold rval in BQ.
    assert (E : IZR q = IZR q / IZR (2 ^ cf c) * IZR (2 ^ cf c)) by (field; lra).
    set (z := IZR q / IZR (2 ^ cf c)) in *. assert (- (15 * 2 ^ cf c) <= q <= 15 * 2 ^ cf c)%Z; [|lia].
    split; apply le_IZR; rewrite ?opp_IZR, mult_IZR, E; clear - BQ P; nra. }
  exists q. split; [apply T; auto|]. split; [exact VQ|].
  assert (CC : 0 < cos x * cos x). { apply Rlt_le_trans with (0.1 * 0.1); [lra|]. replace (cos x * cos x) with (Rabs (cos x) * Rabs (cos x)) by (rewrite <- Rabs_mult; apply Rabs_pos_eq; nra). nra. }
  assert (FIN : forall es A, 1.34 * (es + (3.7e-6 + (17 + Rabs x / 6) * u)) <= A -> Rabs (rval (cf c) s - sin x) <= es ->
     Rabs (rval (cf c) q - tan x) <= A / (cos x * cos x) + u).
  { intros es A HA H. destruct (E1 _ H) as [_ Q]. unfold tan.
    eapply Rle_trans; [eapply tri; [left; exact QU|exact Q]|]. rewrite Rplus_comm. apply Rplus_le_compat_r. unfold Rdiv.
    apply Rmult_le_compat_r; auto. left. apply Rinv_0_lt_compat; auto. }
  assert (XU : 0 <= Rabs x * u) by (apply Rmult_le_pos; lra).
  split; [intros X; refine (FIN _ _ _ (S1 X))|refine (FIN _ _ _ S2)]; clear - U XU; lra.
Qed.

Hypothesis F14 : (14 <= cf c)%Z.
Lemma t_u : 0 < u <= / 16384.
Proof using HS F14.
  split; [apply tulp; auto|]. apply Rinv_le_contravar; [lra|]. apply IZR_le. change 16384%Z with (2 ^ 14)%Z. apply Z.pow_le_mono_r; lia.
Qed.
Lemma t_in m : Rabs (rval (cf c) m) <= 3 -> valid c m = true /\ (- top c < m)%Z.
Proof using HS.
  clear F14. intros H. pose proof (g_M c HS) as HM. pose proof (g_top c HS) as HT. assert (P : 0 < IZR (2 ^ cf c)) by (apply IZR_lt; lia). apply Rabs_inv_le in H. unfold rval in H.
  assert (- (3 * 2 ^ cf c) <= m <= 3 * 2 ^ cf c)%Z.
  { assert (E : IZR m = IZR m / IZR (2 ^ cf c) * IZR (2 ^ cf c)) by (field; lra).
    set (q := IZR m / IZR (2 ^ cf c)) in *. split; apply le_IZR; rewrite ?opp_IZR, mult_IZR, E; clear - H P; nra. }
  split; [apply (g_valid c HS); lia|lia].
Qed.
Lemma cos_lo' x : Rabs x <= 0.7864 -> 0.7063 <= cos x.
Proof. intros H. apply Rabs_inv_le in H. interval. Qed.
Lemma tan_small_every m : Rabs (rval (cf c) m) <= 0.7864 -> exists r, fx_tan c m = Ok r /\ valid c r = true /\
  Rabs (rval (cf c) r - tan (rval (cf c) m)) <= 8.7e-4 + 87 * u.
Proof using HS F14.
  intros H. destruct (t_in m ltac:(lra)) as [V N]. pose proof t_u as U. pose proof (cos_lo' _ H) as C. pose proof (Rabs_pos (rval (cf c) m)) as X0.
  destruct (tan_acc_every m V N) as (r & E & Vr & _ & B).
  - rewrite Rabs_pos_eq; lra.
  - clear - H U X0. nra.
  - exists r. split; [auto|]. split; [auto|]. eapply Rle_trans; [exact B|]. set (k := cos (rval (cf c) m)) in *. set (x := Rabs (rval (cf c) m)) in *.
    assert (D : 0.4988 <= k * k) by (clear - C; nra).
    assert ((4.3e-4 + (42 + x / 2) * u) / (k * k) <= 8.7e-4 + 86 * u); [|lra].
    apply Rmult_le_reg_r with (k * k); [lra|]. unfold Rdiv. rewrite Rmult_assoc, Rinv_l by lra.
    clear - D U H X0. clearbody x. set (d := k * k) in *. clearbody d. nra.
Qed.
Theorem tan_atan_every m : Rabs (rval (cf c) m) <= 1 -> exists a t, fx_atan c m = Ok a /\ fx_tan c a = Ok t /\
  Rabs (rval (cf c) t - rval (cf c) m) <= 1.42e-3 + 108 * u.
Proof using HS F14.
  intros H. pose proof t_u as U. pose proof (g_M c HS) as HM. assert (P : 0 < IZR (2 ^ cf c)) by (apply IZR_lt; lia).
  assert (L : (Z.abs m <= 2 ^ cf c)%Z).
  { apply le_IZR. rewrite abs_IZR. unfold rval, Rdiv in H. rewrite Rabs_mult, (Rabs_pos_eq (/ _)) in H by (left; apply Rinv_0_lt_compat; auto).
    apply Rmult_le_reg_r with (/ IZR (2 ^ cf c)); [apply Rinv_0_lt_compat; auto|]. rewrite Rinv_r by lra. exact H. }
  destruct (atan_gen c m HS L) as (a & Ea & Va & _ & _ & _ & Ba). fold u in Ba. pose proof (atan_bd _ H) as AB.
  assert (NA : Rabs (rval (cf c) a) <= 2.7e-4 + 10 * u + 0.7854) by (eapply near; [exact Ba|auto]).
  destruct (tan_small_every a ltac:(lra)) as (t & Et & _ & Bt). exists a, t. split; [auto|]. split; [auto|].
  rewrite <- (tan_atan (rval (cf c) m)). pose proof (tan_lip (rval (cf c) a) (atan (rval (cf c) m)) ltac:(lra) ltac:(lra)) as TL.
  eapply Rle_trans; [eapply tri; [exact Bt|exact TL]|]. lra.
Qed.
Theorem atan_tan_every m : Rabs (rval (cf c) m) <= 0.78 -> exists t a, fx_tan c m = Ok t /\ fx_atan c t = Ok a /\
  Rabs (rval (cf c) a - rval (cf c) m) <= 1.15e-3 + 97 * u.
Proof using HS F14.
  intros H. pose proof t_u as U. pose proof (g_M c HS) as HM. assert (P : 0 < IZR (2 ^ cf c)) by (apply IZR_lt; lia).
  destruct (tan_small_every m ltac:(lra)) as (t & Et & Vt & Bt). exists t.
  assert (NT : Rabs (rval (cf c) t) <= 8.7e-4 + 87 * u + 0.9893) by (eapply near; [exact Bt|apply tan_small; auto]).
  assert (L : (Z.abs t <= 2 ^ cf c)%Z).
  { apply le_IZR. rewrite abs_IZR. unfold rval, Rdiv in NT. rewrite Rabs_mult, (Rabs_pos_eq (/ _)) in NT by (left; apply Rinv_0_lt_compat; auto).
    apply Rmult_le_reg_r with (/ IZR (2 ^ cf c)); [apply Rinv_0_lt_compat; auto|]. rewrite Rinv_r by lra. lra. }
  destruct (atan_gen c t HS L) as (a & Ea & Va & _ & _ & _ & Ba). fold u in Ba. exists a. split; [auto|]. split; [auto|].
  pose proof (atan_lip (rval (cf c) t) (tan (rval (cf c) m))) as TL. apply Rabs_inv_le in H.
  rewrite (atan_tan (rval (cf c) m)) in TL by (assert (1.57 < PI / 2) by (clear; interval); split; lra).
  eapply Rle_trans; [eapply tri; [exact Ba|exact TL]|]. lra.
Qed.
End S.
