(** asin and acos undo sin and cos in the 64-bit instantiations of AsinGen.v. *)
From Coq Require Import ZArith Reals Lia Lra Psatz Bool.
From Verif Require Import Base Fixed Math Spec SpecReal BaseLemmas FixedLemmas CLemmas RealLemmas StdProofs SinProofs SinPoly SinThms AsinAcc CordicThms InvTrig SinGen SinGen2 AsinGen SinSum.
Open Scope R_scope.

Section S.
Variable c : cfg.
Hypothesis HS : sin_cfg c.
Hypothesis HB : bits (ct c) = 64%Z.
Hypothesis F13 : (13 <= cf c)%Z.
Lemma i_M : (8192 <= 2 ^ cf c)%Z /\ 0 < ulp (cf c) <= / 8192.
Proof using HS F13.
  assert (M13 : (8192 <= 2 ^ cf c)%Z) by (change 8192%Z with (2 ^ 13)%Z; apply Z.pow_le_mono_r; lia).
  split; [exact M13|]. split; [apply tulp; auto|]. apply Rinv_le_contravar; [lra|apply IZR_le; exact M13].
Qed.
Lemma i_in m : Rabs (rval (cf c) m) <= 3 -> valid c m = true /\ (- top c < m)%Z.
Proof using HS HB F13.
  intros H. destruct i_M as [M13 _]. assert (P : 0 < IZR (2 ^ cf c)) by (apply IZR_lt; lia). apply Rabs_inv_le in H. unfold rval in H.
  assert (T : top c = (2 ^ 63)%Z) by (unfold top; rewrite HB; reflexivity). pose proof (g_f c HS) as F.
  assert (F59 : (cf c <= 59)%Z) by (destruct HS as (_ & _ & _ & _ & [[? ?]|[? ?]]); lia).
  assert (M59 : (2 ^ cf c <= 2 ^ 59)%Z) by (apply Z.pow_le_mono_r; lia). change (2 ^ 63)%Z with (16 * 2 ^ 59)%Z in T.
  assert (- (3 * 2 ^ cf c) <= m <= 3 * 2 ^ cf c)%Z.
  { assert (E : IZR m = IZR m / IZR (2 ^ cf c) * IZR (2 ^ cf c)) by (field; lra).
    set (q := IZR m / IZR (2 ^ cf c)) in *. split; apply le_IZR; rewrite ?opp_IZR, mult_IZR, E; nra. }
  split; [apply (g_valid c HS); lia|lia].
Qed.
Theorem sin_asin_every m : Rabs (rval (cf c) m) <= 0.7 -> exists a s, fx_asin c m = Ok a /\ fx_sin c a = Ok s /\
  Rabs (rval (cf c) s - rval (cf c) m) <= 6.6e-4 + 36 * ulp (cf c).
Proof using HS HB F13.
  intros H. destruct i_M as [_ U]. destruct (asin_gen64 c HS HB m F13 H) as (a & Ea & Va & _ & _ & Ba).
  assert (NA : Rabs (rval (cf c) a) <= 3.5e-4 + 18 * ulp (cf c) + 0.776) by (eapply near; [exact Ba|apply asin_bd; auto]).
  destruct (i_in a ltac:(lra)) as [_ N]. destruct (sin_t c HS a Va N) as (s & Es & Bs). exists a, s. split; [auto|]. split; [auto|].
  apply Rabs_inv_le in H. rewrite <- (sin_asin (rval (cf c) m)) by (split; lra). unfold terr in Bs.
  eapply Rle_trans; [eapply tri; [exact Bs|eapply Rle_trans; [apply sin_lip|exact Ba]]|]. clear - NA U. pose proof (Rabs_pos (rval (cf c) a)). nra.
Qed.
Theorem cos_acos_every m : Rabs (rval (cf c) m) <= 0.7 -> exists a s, fx_acos c m = Ok a /\ fx_cos c a = Ok s /\
  Rabs (rval (cf c) s - rval (cf c) m) <= 6.6e-4 + 38 * ulp (cf c).
Proof using HS HB F13.
  intros H. destruct i_M as [_ U]. destruct (acos_gen64 c HS HB m F13 H) as (a & Ea & Va & Ba).
  assert (NA : Rabs (rval (cf c) a) <= 3.5e-4 + 20 * ulp (cf c) + 2.35) by (eapply near; [exact Ba|apply acos_bd; auto]).
  destruct (cos_t c HS a Va) as (s & Es & Bs). exists a, s. split; [auto|]. split; [auto|].
  apply Rabs_inv_le in H. rewrite <- (cos_acos (rval (cf c) m)) by (split; lra). unfold terr in Bs.
  eapply Rle_trans; [eapply tri; [exact Bs|eapply Rle_trans; [apply cos_lip|exact Ba]]|]. clear - NA U. pose proof (Rabs_pos (rval (cf c) a)). nra.
Qed.
Theorem asin_sin_every m : Rabs (rval (cf c) m) <= 0.77 -> exists s a, fx_sin c m = Ok s /\ fx_asin c s = Ok a /\
  Rabs (rval (cf c) a - rval (cf c) m) <= 7.9e-4 + 43 * ulp (cf c).
Proof using HS HB F13.
  intros H. destruct i_M as [_ U]. destruct (i_in m ltac:(lra)) as [V N]. destruct (sin_t c HS m V N) as (s & Es & Bs). exists s.
  assert (Bs' : Rabs (rval (cf c) s - sin (rval (cf c) m)) <= 3.1e-4 + 17.13 * ulp (cf c)).
  { unfold terr in Bs. eapply Rle_trans; [exact Bs|]. clear - H U. pose proof (Rabs_pos (rval (cf c) m)). nra. }
  assert (NS : Rabs (rval (cf c) s) <= 3.1e-4 + 17.13 * ulp (cf c) + 0.6962) by (eapply near; [exact Bs'|apply sin_small; auto]).
  destruct (asin_gen64 c HS HB s F13 ltac:(lra)) as (a & Ea & Va & _ & _ & Ba). exists a. split; [auto|]. split; [auto|].
  assert (X : Rabs (asin (rval (cf c) s) - rval (cf c) m) <= 1.41 * (3.1e-4 + 17.13 * ulp (cf c))).
  { eapply Rle_trans; [apply sin_exp; [pose proof (asin_bd (rval (cf c) s) ltac:(lra)); lra|lra]|].
    apply Rabs_inv_le in NS. rewrite sin_asin by (split; lra). lra. }
  eapply Rle_trans; [eapply tri; [exact Ba|exact X]|]. lra.
Qed.
Theorem acos_cos_every m : 0.81 <= rval (cf c) m <= 2.33 -> exists s a, fx_cos c m = Ok s /\ fx_acos c s = Ok a /\
  Rabs (rval (cf c) a - rval (cf c) m) <= 7.9e-4 + 45 * ulp (cf c).
Proof using HS HB F13.
  intros H. destruct i_M as [_ U]. assert (HA : Rabs (rval (cf c) m) <= 2.33) by (apply Rabs_le; lra).
  destruct (i_in m ltac:(lra)) as [V N]. destruct (cos_t c HS m V) as (s & Es & Bs). exists s.
  assert (Bs' : Rabs (rval (cf c) s - cos (rval (cf c) m)) <= 3.1e-4 + 17.4 * ulp (cf c)).
  { unfold terr in Bs. eapply Rle_trans; [exact Bs|]. clear - HA U. pose proof (Rabs_pos (rval (cf c) m)). nra. }
  assert (NS : Rabs (rval (cf c) s) <= 3.1e-4 + 17.4 * ulp (cf c) + 0.6897) by (eapply near; [exact Bs'|apply cos_small; auto]).
  destruct (acos_gen64 c HS HB s F13 ltac:(lra)) as (a & Ea & Va & Ba). exists a. split; [auto|]. split; [auto|].
  pose proof (acos_cos_real _ _ _ H Bs' ltac:(lra)) as X.
  eapply Rle_trans; [eapply tri; [exact Ba|exact X]|]. lra.
Qed.
End S.
