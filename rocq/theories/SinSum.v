(** Evenness of cos and the addition formulas for the instantiations of SinGen.v. *)
From Coq Require Import ZArith Reals Lia Lra Psatz Bool.
From Verif Require Import Base Fixed Math Spec SpecReal BaseLemmas FixedLemmas CLemmas RealLemmas StdProofs SinPoly SinThms ExpProofs SinGen SinGen2.
Open Scope R_scope.

(** the error of sin and cos at [x] *)
Definition terr (f : Z) (x : R) : R := 3.1e-4 + (17 + Rabs x / 6) * ulp f.
Lemma prod_near s S k C e e' : Rabs (s - S) <= e -> Rabs (k - C) <= e' -> Rabs S <= 1 -> Rabs C <= 1 -> Rabs (s * k - S * C) <= e + e' + e * e'.
Proof.
  intros A B HS HC. replace (s * k - S * C) with ((s - S) * C + S * (k - C) + (s - S) * (k - C)) by ring.
  pose proof (Rabs_pos (s - S)) as PA. pose proof (Rabs_pos (k - C)) as PB. pose proof (Rabs_pos S). pose proof (Rabs_pos C).
  apply Rle_trans with (1 := Rabs_triang _ _). apply Rplus_le_compat.
  - apply Rle_trans with (1 := Rabs_triang _ _). rewrite !Rabs_mult. apply Rplus_le_compat; nra.
  - rewrite Rabs_mult. apply Rmult_le_compat; auto.
Qed.
Lemma sin_abs x : Rabs (sin x) <= 1. Proof. apply Rabs_le, SIN_bound. Qed.
Lemma cos_abs x : Rabs (cos x) <= 1. Proof. apply Rabs_le, COS_bound. Qed.

Section S.
Variable c : cfg.
Hypothesis HS : sin_cfg c.
Lemma tulp : 0 < ulp (cf c).
Proof using HS. pose proof (g_M c HS) as HM. apply Rinv_0_lt_compat, IZR_lt. lia. Qed.
Lemma sin_t m : valid c m = true -> (- top c < m)%Z -> exists s, fx_sin c m = Ok s /\ Rabs (rval (cf c) s - sin (rval (cf c) m)) <= terr (cf c) (rval (cf c) m).
Proof using HS.
  intros V N. assert (LO : lo (bits (ct c)) true = (- top c)%Z) by reflexivity. pose proof tulp.
  destruct (sin_gen c m HS V ltac:(rewrite LO; exact N)) as (s & E1 & _ & _ & _ & A1). exists s. split; [exact E1|]. unfold terr. lra.
Qed.
Lemma cos_t m : valid c m = true -> exists k, fx_cos c m = Ok k /\ Rabs (rval (cf c) k - cos (rval (cf c) m)) <= terr (cf c) (rval (cf c) m).
Proof using HS. intros V. destruct (cos_gen c m HS V) as (k & E2 & _ & _ & _ & A2). exists k. auto. Qed.

Theorem cos_even_every m : valid c m = true -> (- top c < m)%Z ->
  exists a b, fx_cos c m = Ok a /\ fx_cos c (- m) = Ok b /\ Rabs (rval (cf c) a - rval (cf c) b) <= 2 * terr (cf c) (rval (cf c) m).
Proof using HS.
  intros V N. assert (V' : valid c (- m) = true) by (apply (g_valid c HS); apply (g_valid c HS) in V; lia).
  destruct (cos_t m V) as (a & Ea & A). destruct (cos_t (- m) V') as (b & Eb & B). exists a, b. split; [auto|]. split; [auto|].
  unfold terr in *. rewrite rval_opp, cos_neg, Rabs_Ropp in B. apply Rabs_inv_le in A, B. apply Rabs_le. split; lra.
Qed.
(** the real combination of the four computed values *)
Theorem sum_every m n : valid c m = true -> valid c n = true -> valid c (m + n) = true ->
  (- top c < m)%Z -> (- top c < n)%Z -> (- top c < m + n)%Z ->
  exists sa sb s ka kb k, fx_sin c m = Ok sa /\ fx_sin c n = Ok sb /\ fx_sin c (m + n) = Ok s /\
    fx_cos c m = Ok ka /\ fx_cos c n = Ok kb /\ fx_cos c (m + n) = Ok k /\
    let E := terr (cf c) (rval (cf c) m) in let E' := terr (cf c) (rval (cf c) n) in
    Rabs (rval (cf c) s - (rval (cf c) sa * rval (cf c) kb + rval (cf c) ka * rval (cf c) sb)) <= terr (cf c) (rval (cf c) (m + n)) + 2 * (E + E' + E * E') /\
    Rabs (rval (cf c) k - (rval (cf c) ka * rval (cf c) kb - rval (cf c) sa * rval (cf c) sb)) <= terr (cf c) (rval (cf c) (m + n)) + 2 * (E + E' + E * E').
Proof using HS.
  intros Vm Vn Vs Nm Nn Ns.
  destruct (sin_t m Vm Nm) as (sa & E1 & A1). destruct (sin_t n Vn Nn) as (sb & E2 & A2). destruct (sin_t (m + n) Vs Ns) as (s & E3 & A3).
  destruct (cos_t m Vm) as (ka & E4 & A4). destruct (cos_t n Vn) as (kb & E5 & A5). destruct (cos_t (m + n) Vs) as (k & E6 & A6).
  exists sa, sb, s, ka, kb, k. do 6 (split; [assumption|]). cbv zeta.
  set (D := terr (cf c) (rval (cf c) (m + n))) in *. set (E := terr (cf c) (rval (cf c) m)) in *. set (E' := terr (cf c) (rval (cf c) n)) in *.
  rewrite rval_add in A3, A6. set (x := rval (cf c) m) in *. set (y := rval (cf c) n) in *. rewrite sin_plus in A3. rewrite cos_plus in A6.
  pose proof (prod_near _ _ _ _ _ _ A1 A5 (sin_abs x) (cos_abs y)) as P1. pose proof (prod_near _ _ _ _ _ _ A4 A2 (cos_abs x) (sin_abs y)) as P2.
  pose proof (prod_near _ _ _ _ _ _ A4 A5 (cos_abs x) (cos_abs y)) as P3. pose proof (prod_near _ _ _ _ _ _ A1 A2 (sin_abs x) (sin_abs y)) as P4.
  clear A1 A2 A4 A5. apply Rabs_inv_le in A3, A6, P1, P2, P3, P4. split; apply Rabs_le; split; lra.
Qed.
End S.
