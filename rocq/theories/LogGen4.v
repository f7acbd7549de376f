(** Logarithms of products and quotients in the instantiations of LogGen.v. *)
From Coq Require Import ZArith Reals Lia Lra Psatz Bool.
From Interval Require Import Tactic.
From Verif Require Import Base Fixed Math SpecReal BaseLemmas FixedLemmas CLemmas RealLemmas LogLaws LogGen LogGen2 LogGen3.
Open Scope R_scope.

Section S.
Variable c : cfg.
Hypothesis HS : log_cfg c.
Hypothesis CR : cr c = false.
Let M := (2 ^ cf c)%Z.
Lemma gM_pos : (0 < M)%Z.
Proof using All. apply pow2_pos. pose proof (lc_f c HS). lia. Qed.
Lemma gmul_pos a b : valid c a = true -> valid c b = true -> 0 < rval (cf c) a -> 0 < rval (cf c) b ->
  rval (cf c) a * rval (cf c) b < rval (cf c) (2 ^ (bits (ct c) - 1)) ->
  exists p, fx_mul c a b = Ok p /\ valid c p = true /\ rval (cf c) p <= rval (cf c) a * rval (cf c) b < rval (cf c) p + ulp (cf c).
Proof using All.
  intros Va Vb Pa Pb H. pose proof (lc_f c HS) as F. apply (rv_pos (cf c)) in Pa; [|lia]. apply (rv_pos (cf c)) in Pb; [|lia]. pose proof gM_pos as MP'. pose proof (IZR_lt _ _ MP') as MP.
  pose proof (div_real (a * b) M ltac:(lia)) as D. rewrite mult_IZR in D.
  assert (I : 0 < / IZR M) by (apply Rinv_0_lt_compat; auto).
  assert (E : rval (cf c) a * rval (cf c) b = (IZR a * IZR b / IZR M) * / IZR M) by (unfold rval; fold M; unfold Rdiv; ring).
  assert (V : valid c (a * b / M) = true).
  { apply (lg_v c HS). assert (0 <= a * b / M)%Z by (apply Z.div_pos; nia).
    assert (a * b / M < bz c)%Z; [|lia]. apply lt_IZR. rewrite E in H. unfold rval at 1 in H. fold M in H. unfold Rdiv at 2 in H.
    apply Rmult_lt_reg_r in H; auto. unfold bz. lra. }
  exists (a * b / M)%Z. split; [rewrite fx_mul_eq by auto using lc_wf; f_equal; apply valid_wrap; auto using lc_wf|].
  split; [exact V|]. rewrite E. unfold rval, ulp. fold M. apply scaled; auto.
Qed.
Lemma gdiv_pos a b : valid c a = true -> valid c b = true -> 0 < rval (cf c) a -> 0 < rval (cf c) b ->
  rval (cf c) a / rval (cf c) b < rval (cf c) (2 ^ (bits (ct c) - 1)) ->
  exists p, fx_div c a b = Ok p /\ valid c p = true /\ rval (cf c) p <= rval (cf c) a / rval (cf c) b < rval (cf c) p + ulp (cf c).
Proof using All.
  intros Va Vb Pa Pb H. pose proof (lc_f c HS) as F. apply (rv_pos (cf c)) in Pa; [|lia]. apply (rv_pos (cf c)) in Pb; [|lia]. pose proof gM_pos as MP'. pose proof (IZR_lt _ _ MP') as MP.
  pose proof (div_real (a * M) b ltac:(lia)) as D. rewrite mult_IZR in D.
  assert (I : 0 < / IZR M) by (apply Rinv_0_lt_compat; auto). assert (BP : 0 < IZR b) by (apply IZR_lt; auto).
  assert (E : rval (cf c) a / rval (cf c) b = (IZR a * IZR M / IZR b) * / IZR M) by (unfold rval; fold M; field; lra).
  assert (Q : Z.quot (a * M) b = (a * M / b)%Z) by (apply Z.quot_div_nonneg; nia).
  assert (V : valid c (a * M / b) = true).
  { apply (lg_v c HS). assert (0 <= a * M / b)%Z by (apply Z.div_pos; nia).
    assert (a * M / b < bz c)%Z; [|lia]. apply lt_IZR. rewrite E in H. unfold rval at 1 in H. fold M in H. unfold Rdiv at 2 in H.
    apply Rmult_lt_reg_r in H; auto. unfold bz. lra. }
  exists (a * M / b)%Z. split; [rewrite fx_div_eq by (auto using lc_wf; lia); fold M; rewrite Q; f_equal; apply valid_wrap; auto using lc_wf|].
  split; [exact V|]. rewrite E. unfold rval, ulp. fold M. apply scaled; auto.
Qed.

Lemma log2_product_gen a b : valid c a = true -> valid c b = true -> 0 < rval (cf c) a -> 0 < rval (cf c) b ->
  rval (cf c) a * rval (cf c) b < rval (cf c) (2 ^ (bits (ct c) - 1)) ->
  exists p, fx_mul c a b = Ok p /\ (0 < rval (cf c) p ->
  exists la lb lp, fx_log2 c a = Ok la /\ fx_log2 c b = Ok lb /\ fx_log2 c p = Ok lp /\
  - (4 * ulp (cf c) + 1.4427 * ulp (cf c) / rval (cf c) p) < rval (cf c) lp - (rval (cf c) la + rval (cf c) lb) < 8 * ulp (cf c)).
Proof using All.
  intros Va Vb Pa Pb H. destruct (gmul_pos a b Va Vb Pa Pb H) as (p & E & Vp & B).
  exists p. split; [exact E|]. intros Pp.
  destruct (log2_gen c a HS Va Pa) as (la & Ea & _ & Ba). destruct (log2_gen c b HS Vb Pb) as (lb & Eb & _ & Bb).
  destruct (log2_gen c p HS Vp Pp) as (lp & Ep & _ & Bp). exists la, lb, lp. repeat (split; [assumption|]).
  pose proof (log_scaled (ln 2) (rval (cf c) p) _ (ulp (cf c)) 1.4427 ln2_pos ln2_lo Pp B) as L. rewrite ln_mult in L by auto. rewrite Rdiv_plus_distr in L.
  unfold log2r in *. unfold Rdiv in *. split; lra.
Qed.
Lemma log2_quotient_gen a b : valid c a = true -> valid c b = true -> 0 < rval (cf c) a -> 0 < rval (cf c) b ->
  rval (cf c) a / rval (cf c) b < rval (cf c) (2 ^ (bits (ct c) - 1)) ->
  exists q, fx_div c a b = Ok q /\ (0 < rval (cf c) q ->
  exists la lb lq, fx_log2 c a = Ok la /\ fx_log2 c b = Ok lb /\ fx_log2 c q = Ok lq /\
  - (8 * ulp (cf c) + 1.4427 * ulp (cf c) / rval (cf c) q) < rval (cf c) lq - (rval (cf c) la - rval (cf c) lb) < 4 * ulp (cf c)).
Proof using All.
  intros Va Vb Pa Pb H. destruct (gdiv_pos a b Va Vb Pa Pb H) as (p & E & Vp & B).
  exists p. split; [exact E|]. intros Pp.
  destruct (log2_gen c a HS Va Pa) as (la & Ea & _ & Ba). destruct (log2_gen c b HS Vb Pb) as (lb & Eb & _ & Bb).
  destruct (log2_gen c p HS Vp Pp) as (lp & Ep & _ & Bp). exists la, lb, lp. repeat (split; [assumption|]).
  pose proof (log_scaled (ln 2) (rval (cf c) p) _ (ulp (cf c)) 1.4427 ln2_pos ln2_lo Pp B) as L.
  rewrite ln_quot in L by auto. rewrite Rdiv_minus_distr in L.
  unfold log2r in *. unfold Rdiv in *. split; lra.
Qed.
Lemma log_product_gen a b : valid c a = true -> valid c b = true -> 0 < rval (cf c) a -> 0 < rval (cf c) b ->
  rval (cf c) a * rval (cf c) b < rval (cf c) (2 ^ (bits (ct c) - 1)) ->
  exists p, fx_mul c a b = Ok p /\ (0 < rval (cf c) p ->
  exists la lb lp, fx_log c a = Ok la /\ fx_log c b = Ok lb /\ fx_log c p = Ok lp /\
  Rabs (rval (cf c) lp - (rval (cf c) la + rval (cf c) lb)) <=
    (18 + Rabs (ln (rval (cf c) a)) + Rabs (ln (rval (cf c) b)) + Rabs (ln (rval (cf c) p))) * ulp (cf c) + ulp (cf c) / rval (cf c) p).
Proof using All.
  intros Va Vb Pa Pb H. destruct (gmul_pos a b Va Vb Pa Pb H) as (p & E & Vp & B).
  exists p. split; [exact E|]. intros Pp.
  destruct (log_gen c a HS CR Va Pa) as (la & Ea & _ & Ba). destruct (log_gen c b HS CR Vb Pb) as (lb & Eb & _ & Bb).
  destruct (log_gen c p HS CR Vp Pp) as (lp & Ep & _ & Bp). exists la, lb, lp. repeat (split; [assumption|]).
  pose proof (ln_trunc (rval (cf c) p) _ (ulp (cf c)) Pp B) as L. rewrite ln_mult in L by auto.
  apply Rabs_inv_le in Ba, Bb, Bp. apply Rabs_le. split; lra.
Qed.
Lemma log_quotient_gen a b : valid c a = true -> valid c b = true -> 0 < rval (cf c) a -> 0 < rval (cf c) b ->
  rval (cf c) a / rval (cf c) b < rval (cf c) (2 ^ (bits (ct c) - 1)) ->
  exists p, fx_div c a b = Ok p /\ (0 < rval (cf c) p ->
  exists la lb lp, fx_log c a = Ok la /\ fx_log c b = Ok lb /\ fx_log c p = Ok lp /\
  Rabs (rval (cf c) lp - (rval (cf c) la - rval (cf c) lb)) <=
    (18 + Rabs (ln (rval (cf c) a)) + Rabs (ln (rval (cf c) b)) + Rabs (ln (rval (cf c) p))) * ulp (cf c) + ulp (cf c) / rval (cf c) p).
Proof using All.
  intros Va Vb Pa Pb H. destruct (gdiv_pos a b Va Vb Pa Pb H) as (p & E & Vp & B).
  exists p. split; [exact E|]. intros Pp.
  destruct (log_gen c a HS CR Va Pa) as (la & Ea & _ & Ba). destruct (log_gen c b HS CR Vb Pb) as (lb & Eb & _ & Bb).
  destruct (log_gen c p HS CR Vp Pp) as (lp & Ep & _ & Bp). exists la, lb, lp. repeat (split; [assumption|]).
  pose proof (ln_trunc (rval (cf c) p) _ (ulp (cf c)) Pp B) as L. rewrite ln_quot in L by auto.
  apply Rabs_inv_le in Ba, Bb, Bp. apply Rabs_le. split; lra.
Qed.
End S.
