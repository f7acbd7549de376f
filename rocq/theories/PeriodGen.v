(** The period of cos and tan for the instantiations of SinGen.v, bit for bit. *)
From Coq Require Import ZArith Reals Lia Lra Psatz Bool.
From Interval Require Import Tactic.
From Verif Require Import Base Fixed Math Spec SpecReal BaseLemmas FixedLemmas CLemmas RealLemmas StdProofs SinPoly SinThms SinGen SinGen2 SinSym SinSum.
Open Scope R_scope.

Section S.
Variable c : cfg.
Hypothesis HS : sin_cfg c.
Let u := ulp (cf c).
Let v := rval (cf c).
(** beyond 3 pi / 2 on the positive side, beyond pi / 2 on the negative side *)
Definition beyond m n : Prop := (4.7126 + u <= v m /\ 4.7126 + u <= v n) \/ (v m <= - 1.571 /\ v n <= - 1.571).
Lemma p_sgn m : (0 < v m <-> (0 < m)%Z) /\ (v m < 0 <-> (m < 0)%Z).
Proof using HS.
  pose proof (tulp c HS) as U. fold u in U. assert (E : v m = IZR m * u) by reflexivity. rewrite E.
  split; split; intros H.
  - apply lt_IZR. nra.
  - apply IZR_lt in H. nra.
  - apply lt_IZR. nra.
  - apply IZR_lt in H. nra.
Qed.
Theorem cos_period_every m k T : IZR T <= 2 * PI * IZR (2 ^ cf c) < IZR T + 1 ->
  valid c m = true -> valid c (m + k * T) = true -> beyond m (m + k * T) ->
  exists r, fx_double_pi c = Ok T /\ fx_cos c m = Ok r /\ fx_cos c (m + k * T) = Ok r.
Proof using HS.
  intros HT V V' B. destruct (g_consts c HS) as (P & H & T' & TH & A & B' & C & D & K). pose proof (g_M c HS) as HM.
  pose proof (k_P _ _ _ _ _ _ _ _ _ K) as KP. pose proof (k_pi _ _ _ _ _ _ _ _ _ K) as EP.
  assert (PB : 3.14159 < PI < 3.141593) by (split; interval with (i_prec 60)).
  assert (R8 : 8 <= IZR (2 ^ cf c)) by (apply IZR_le; lia).
  assert (RP : (3 * 2 ^ cf c < P < 4 * 2 ^ cf c)%Z) by (split; apply lt_IZR; rewrite mult_IZR; nra).
  pose proof (tulp c HS) as U. fold u in U. assert (UM : u * IZR (2 ^ cf c) = 1) by (unfold u, ulp; field; lra).
  assert (E : forall z, v z = IZR z * u) by reflexivity.
  set (h := (P / 2)%Z). pose proof (Z.div_mod P 2 ltac:(lia)) as DM. pose proof (Z.mod_pos_bound P 2 ltac:(lia)) as MB. fold h in DM.
  assert (PU : PI - u < v P <= PI).
  { rewrite E. replace PI with (PI * IZR (2 ^ cf c) * u) by (rewrite Rmult_assoc, (Rmult_comm _ u), UM; ring). split.
    - replace (PI * IZR (2 ^ cf c) * u - u) with ((PI * IZR (2 ^ cf c) - 1) * u) by ring. apply Rmult_lt_compat_r; lra.
    - apply Rmult_le_compat_r; lra. }
  assert (VH : v h <= PI / 2) by (assert (v h * 2 <= v P); [rewrite !E; assert (IZR (h * 2) <= IZR P) by (apply IZR_le; lia); rewrite mult_IZR in H0; clear - H0 U; nra|lra]).
  assert (VG : v (2 * P - h) <= 3 * PI / 2 + u).
  { assert (v (2 * P - h) * 2 <= 3 * v P + u); [|lra]. rewrite !E. assert (IZR ((2 * P - h) * 2) <= IZR (3 * P + 1)) by (apply IZR_le; lia).
    rewrite mult_IZR, plus_IZR, mult_IZR in H0. clear - H0 U. nra. }
  destruct (cos_gen_eq c P m HS EP RP V) as (C1 & V1 & L1). destruct (cos_gen_eq c P (m + k * T) HS EP RP V') as (C2 & V2 & L2). fold h in C1, V1, L1, C2, V2, L2.
  assert (VS : forall a b, v (a - b) = v a - v b) by (intros; rewrite !E, minus_IZR; ring).
  assert (VA : forall a b, v (a + b) = v a + v b) by (intros; rewrite !E, plus_IZR; ring).
  rewrite C1, C2. change (lo (bits (ct c)) true) with (- top c)%Z in L1, L2. unfold cos_arg in *. unfold beyond in B. destruct B as [[B1 B2]|[B1 B2]].
  - assert (M1 : (0 < m)%Z) by (apply p_sgn; lra). assert (M2 : (0 < m + k * T)%Z) by (apply p_sgn; lra).
    rewrite (proj2 (Z.ltb_lt 0 m) M1) in *. rewrite (proj2 (Z.ltb_lt 0 (m + k * T)) M2) in *.
    replace (m + k * T - (2 * P - h))%Z with (m - (2 * P - h) + k * T)%Z in * by ring.
    assert (A1 : 0.000151 <= v (m - (2 * P - h))) by (rewrite VS; lra).
    assert (A2 : 0.000151 <= v (m - (2 * P - h) + k * T)) by (replace (m - (2 * P - h) + k * T)%Z with (m + k * T - (2 * P - h))%Z by ring; rewrite VS; lra).
    apply sin_period_every; auto; fold v; try (rewrite Rabs_pos_eq; lra).
    assert (0 < m - (2 * P - h))%Z by (apply p_sgn; lra). assert (0 < m - (2 * P - h) + k * T)%Z by (apply p_sgn; lra). apply Z.mul_nonneg_nonneg; apply Z.lt_le_incl; assumption.
  - assert (M1 : (m < 0)%Z) by (apply p_sgn; lra). assert (M2 : (m + k * T < 0)%Z) by (apply p_sgn; lra).
    assert (Z1 : (0 <? m)%Z = false) by (apply Z.ltb_ge; lia). assert (Z2 : (0 <? m + k * T)%Z = false) by (apply Z.ltb_ge; lia).
    rewrite Z1 in V1, L1 |- *. rewrite Z2 in V2, L2 |- *.
    replace (m + k * T + h)%Z with (m + h + k * T)%Z in * by ring.
    assert (A1 : v (m + h) <= - 0.000151) by (rewrite VA; lra).
    assert (A2 : v (m + h + k * T) <= - 0.000151) by (replace (m + h + k * T)%Z with (m + k * T + h)%Z by ring; rewrite VA; lra).
    apply sin_period_every; auto; fold v; try (rewrite Rabs_left; lra).
    assert (m + h < 0)%Z by (apply p_sgn; lra). assert (m + h + k * T < 0)%Z by (apply p_sgn; lra). apply Z.mul_nonpos_nonpos; apply Z.lt_le_incl; assumption.
Qed.
Theorem tan_period_every m k T : IZR T <= 2 * PI * IZR (2 ^ cf c) < IZR T + 1 ->
  valid c m = true -> valid c (m + k * T) = true -> (- top c < m)%Z -> (- top c < m + k * T)%Z -> beyond m (m + k * T) ->
  fx_double_pi c = Ok T /\ fx_tan c (m + k * T) = fx_tan c m.
Proof using HS.
  intros HT V V' N N' B. destruct (cos_period_every m k T HT V V' B) as (r & E0 & E1 & E2). split; [exact E0|].
  assert (S : exists s, fx_double_pi c = Ok T /\ fx_sin c m = Ok s /\ fx_sin c (m + k * T) = Ok s).
  { pose proof (tulp c HS) as U. fold u in U. unfold beyond in B. apply sin_period_every; auto; fold v.
    - destruct B as [[B1 B2]|[B1 B2]]; [rewrite Rabs_pos_eq; lra|rewrite Rabs_left; lra].
    - destruct B as [[B1 B2]|[B1 B2]]; [rewrite Rabs_pos_eq; lra|rewrite Rabs_left; lra].
    - destruct (p_sgn m) as [P1 P2]. destruct (p_sgn (m + k * T)) as [Q1 Q2]. destruct B as [[B1 B2]|[B1 B2]].
      + assert (0 < m)%Z by (apply P1; lra). assert (0 < m + k * T)%Z by (apply Q1; lra). apply Z.mul_nonneg_nonneg; apply Z.lt_le_incl; assumption.
      + assert (m < 0)%Z by (apply P2; lra). assert (m + k * T < 0)%Z by (apply Q2; lra). apply Z.mul_nonpos_nonpos; apply Z.lt_le_incl; assumption. }
  destruct S as (s & _ & S1 & S2). unfold fx_tan. rewrite E1, E2, S1, S2. reflexivity.
Qed.
End S.
