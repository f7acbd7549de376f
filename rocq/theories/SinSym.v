(** Oddness and period of sin for the instantiations of SinGen.v; oddness of asin. *)
From Coq Require Import ZArith Reals Lia Lra Psatz Bool List.
From Interval Require Import Tactic.
From Verif Require Import Base Fixed Math Spec SpecReal BaseLemmas FixedLemmas CLemmas MathProofs RealLemmas StdProofs SinPoly SinProofs SinThms RealThms SymProofs SinGen SinGen2.
Open Scope R_scope.

(** as sin_z_odd, with the quotient one unit above four quadrants *)
Lemma sin_z_odd' M P H T TH A B C D m : (1 < M)%Z -> (0 < H)%Z -> (0 < T)%Z -> (TH <= Z.abs m)%Z ->
  (- (4 * M + 1) <= Z.quot (Z.rem m T * M) H <= 4 * M + 1)%Z ->
  sin_z M P H T TH A B C D (- m) = (- sin_z M P H T TH A B C D m)%Z.
Proof.
  intros HM HH HT L Q. unfold sin_z, sin_red, sin_neg_z, sin_quad. cbv zeta. rewrite Z.abs_opp.
  rewrite Z.rem_opp_l by lia. rewrite Z.mul_opp_l, Z.quot_opp_l by lia.
  set (q := Z.quot (Z.rem m T * M) H) in *. clearbody q.
  replace (Z.abs m <? TH)%Z with false by (symmetry; apply Z.ltb_ge; lia).
  assert (E0 : forall x, x = 0%Z -> sin_poly_z M P A B C D x = 0%Z) by (intros x ->; apply poly0; lia).
  assert (EE : forall x y, x = y -> sin_poly_z M P A B C D x = sin_poly_z M P A B C D y) by (intros; congruence).
  clear - HM Q E0 EE.
  repeat match goal with |- context [(?a <? ?b)%Z] => destruct (Z.ltb_spec a b) end;
  first [ lia
        | (rewrite !E0 by lia; reflexivity)
        | (match goal with |- (- sin_poly_z _ _ _ _ _ _ ?x)%Z = (- sin_poly_z _ _ _ _ _ _ ?y)%Z => rewrite (EE x y) by lia; reflexivity end)
        | (match goal with |- (sin_poly_z _ _ _ _ _ _ ?x)%Z = (- - sin_poly_z _ _ _ _ _ _ ?y)%Z => rewrite (EE x y) by lia; lia end) ].
Qed.
Lemma above_TH c TH m : sin_cfg c -> IZR TH <= 0.000151 * IZR (2 ^ cf c) -> 0.000151 <= Rabs (rval (cf c) m) -> (TH <= Z.abs m)%Z.
Proof.
  intros HS HT HX. pose proof (g_M c HS) as HM. assert (R : 8 <= IZR (2 ^ cf c)) by (apply IZR_le; lia).
  apply le_IZR. rewrite abs_IZR. unfold rval, Rdiv in HX. rewrite Rabs_mult, (Rabs_pos_eq (/ _)) in HX by (left; apply Rinv_0_lt_compat; lra).
  apply Rle_trans with (1 := HT). apply Rle_trans with (Rabs (IZR m) * / IZR (2 ^ cf c) * IZR (2 ^ cf c)); [apply Rmult_le_compat_r; lra|].
  rewrite Rmult_assoc, Rinv_l by lra. lra.
Qed.
Theorem sin_odd_every c m : sin_cfg c -> valid c m = true -> (- top c < m)%Z -> 0.000151 <= Rabs (rval (cf c) m) ->
  exists r, fx_sin c m = Ok r /\ fx_sin c (- m) = Ok (- r)%Z.
Proof.
  intros HS V N HX. pose proof (g_M c HS) as HM. destruct (g_consts c HS) as (P & H & T & TH & A & B & C & D & K).
  pose proof (above_TH c TH m HS (k_TH _ _ _ _ _ _ _ _ _ K) HX) as L. pose proof (proj1 (g_valid c HS m) V) as R.
  assert (V' : valid c (- m) = true) by (apply (g_valid c HS); lia).
  exists (sin_z (2 ^ cf c) P H T TH A B C D m). split; [apply (k_sin _ _ _ _ _ _ _ _ _ K); auto; lia|].
  rewrite (k_sin _ _ _ _ _ _ _ _ _ K) by (auto; lia). f_equal. destruct (k_pos _ _ _ _ _ _ _ _ _ K) as [H0 T0].
  apply sin_z_odd'; auto; [lia|apply (k_quot _ _ _ _ _ _ _ _ _ K)].
Qed.
(** T is the stored 2 pi *)
Theorem sin_period_every c m k T : sin_cfg c -> IZR T <= 2 * PI * IZR (2 ^ cf c) < IZR T + 1 ->
  valid c m = true -> valid c (m + k * T) = true -> (- top c < m)%Z -> (- top c < m + k * T)%Z ->
  0.000151 <= Rabs (rval (cf c) m) -> 0.000151 <= Rabs (rval (cf c) (m + k * T)) -> (0 <= m * (m + k * T))%Z ->
  exists r, fx_double_pi c = Ok T /\ fx_sin c m = Ok r /\ fx_sin c (m + k * T) = Ok r.
Proof.
  intros HS HT V V' N N' X X' S. pose proof (g_M c HS) as HM. destruct (g_consts c HS) as (P & H & T' & TH & A & B & C & D & K).
  assert (T' = T).
  { pose proof (k_TP _ _ _ _ _ _ _ _ _ K) as Q. assert (IZR T' < IZR (T + 1)) by (rewrite plus_IZR; lra). assert (IZR T < IZR (T' + 1)) by (rewrite plus_IZR; lra).
    apply lt_IZR in H0, H1. lia. }
  subst T'. exists (sin_z (2 ^ cf c) P H T TH A B C D m). split; [apply (k_T _ _ _ _ _ _ _ _ _ K)|].
  split; [apply (k_sin _ _ _ _ _ _ _ _ _ K); auto; lia|].
  rewrite (k_sin _ _ _ _ _ _ _ _ _ K) by (auto; lia). f_equal. destruct (k_pos _ _ _ _ _ _ _ _ _ K) as [H0 T0].
  apply sin_z_period; auto; [lia| |]; apply (above_TH c); auto; apply (k_TH _ _ _ _ _ _ _ _ _ K).
Qed.
(** sin^2 + cos^2 *)
Theorem pythagoras_every c m : sin_cfg c -> valid c m = true -> (- top c < m)%Z ->
  exists s k, fx_sin c m = Ok s /\ fx_cos c m = Ok k /\
    let E := 3.1e-4 + (17 + Rabs (rval (cf c) m) / 6) * ulp (cf c) in
    Rabs (rval (cf c) s * rval (cf c) s + rval (cf c) k * rval (cf c) k - 1) <= 3 * E + 2 * (E * E).
Proof.
  intros HS V N. assert (LO : lo (bits (ct c)) true = (- top c)%Z) by reflexivity.
  destruct (sin_gen c m HS V ltac:(rewrite LO; exact N)) as (s & E1 & _ & _ & _ & A1). destruct (cos_gen c m HS V) as (k & E2 & _ & _ & _ & A2).
  exists s, k. split; [exact E1|]. split; [exact E2|]. cbv zeta.
  pose proof (g_M c HS) as HM. assert (R : 8 <= IZR (2 ^ cf c)) by (apply IZR_le; lia).
  assert (U : 0 < ulp (cf c)) by (apply Rinv_0_lt_compat; lra).
  set (x := rval (cf c) m) in *. pose proof (sin2_cos2 x) as SC. unfold Rsqr in SC.
  set (E := 3.1e-4 + (17 + Rabs x / 6) * ulp (cf c)) in *.
  assert (A1' : Rabs (rval (cf c) s - sin x) <= E) by (unfold E; lra). clear A1.
  pose proof (Rle_trans _ _ _ (Rabs_pos _) A2) as E0.
  set (a := rval (cf c) s - sin x) in *. set (b := rval (cf c) k - cos x) in *.
  replace (rval (cf c) s) with (sin x + a) by (unfold a; ring). replace (rval (cf c) k) with (cos x + b) by (unfold b; ring).
  set (S := sin x) in *. set (C := cos x) in *. clearbody E a b S C x. apply Rabs_inv_le in A1', A2.
  replace ((S + a) * (S + a) + (C + b) * (C + b) - 1) with (2 * (S * a + C * b) + (a * a + b * b)) by (rewrite <- SC; ring).
  assert (Q1 : a * a <= E * E) by nra. assert (Q2 : b * b <= E * E) by nra.
  assert (Q3 : Rabs (S * a + C * b) <= 1.5 * E).
  { rewrite <- (Rabs_pos_eq (1.5 * E)) by lra. apply Rsqr_le_abs_0. unfold Rsqr. pose proof (Rle_0_sqr (S * b - C * a)) as Z0. unfold Rsqr in Z0. assert (0 <= E * E) by (clear; nra).
    assert (CS : (S * a + C * b) * (S * a + C * b) <= (S * S + C * C) * (a * a + b * b)) by (clear - Z0; lra). rewrite SC in CS. lra. }
  apply Rabs_inv_le in Q3. apply Rabs_le. assert (0 <= a * a + b * b) by nra. nra.
Qed.
