(** The square of a root and the root of a square in the 64-bit instantiations of SqrtGen.v. *)
From Coq Require Import ZArith Reals Lia Lra Psatz Bool.
From Verif Require Import Base Fixed Math Spec SpecReal BaseLemmas FixedLemmas CLemmas RealLemmas SinGen SinSum SqrtGen AsinGen.
Open Scope R_scope.

Section S.
Variable c : cfg.
Hypothesis HS : sin_cfg c.
Hypothesis HB : bits (ct c) = 64%Z.
Let u := ulp (cf c).
Let v := rval (cf c).
Let M := (2 ^ cf c)%Z.
Lemma s_u : 0 < u /\ u * IZR M = 1 /\ (forall k, v k = IZR k * u) /\ u <= / 8.
Proof using HS.
  pose proof (g_M c HS) as HM. fold M in HM. assert (8 <= IZR M) by (apply IZR_le; lia).
  split; [apply Rinv_0_lt_compat; fold M; lra|]. split; [unfold u, ulp; fold M; field; lra|]. split; [reflexivity|]. unfold u, ulp. fold M. apply Rinv_le_contravar; lra.
Qed.
(** the product rounds down *)
Lemma s_prod a b : v a * v b - u < v (a * b / M) <= v a * v b.
Proof using HS.
  destruct s_u as (U & UM & RV & _). pose proof (g_M c HS) as HM. fold M in HM. rewrite !RV. pose proof (div_real (a * b) M ltac:(lia)) as [D1 D2]. rewrite mult_IZR in D1, D2.
  assert (E : IZR a * u * (IZR b * u) = IZR a * IZR b / IZR M * u).
  { replace (IZR a * IZR b / IZR M) with (IZR a * IZR b * (u * IZR M) / IZR M) by (rewrite UM; field; apply not_0_IZR; lia). field. apply not_0_IZR. lia. }
  rewrite E. split.
  - replace (IZR a * IZR b / IZR M * u - u) with ((IZR a * IZR b / IZR M - 1) * u) by ring. apply Rmult_lt_compat_r; lra.
  - apply Rmult_le_compat_r; lra.
Qed.
Lemma s_62 : (M * 8 <= 2 ^ 62)%Z.
Proof using HS. pose proof (g_f c HS). unfold M. replace (2 ^ cf c * 8)%Z with (2 ^ (cf c + 3))%Z by (rewrite Z.pow_add_r by lia; reflexivity). apply Z.pow_le_mono_r; lia. Qed.
Theorem square_of_root m : (0 < m < 2 ^ 62)%Z -> exists r q, fx_sqrt c m = Ok r /\ fx_mul c r r = Ok q /\
  - (u + 2 * u * sqrt (v m)) <= v q - v m <= 5 / 65536 + u + 4 * u * (sqrt (v m) + u) + 5e-16 * v m.
Proof using HS HB.
  intros Hm. destruct s_u as (U & UM & RV & U8). pose proof (g_M c HS) as HM. fold M in HM. pose proof s_62 as H62.
  destruct (sqrt_gen64_real c HS HB m ltac:(lia) (or_introl (proj2 Hm))) as (r & E & Vr & Pr & _ & B1 & B2). fold u v in B1, B2.
  pose proof (s_prod r r) as P. exists r, (r * r / M)%Z. split; [exact E|]. split; [|lra].
  assert (X0 : 0 < v m) by (rewrite RV; apply Rmult_lt_0_compat; auto; apply IZR_lt; lia).
  assert (SX : 0 <= sqrt (v m) <= 1 + v m).
  { split; [apply sqrt_pos|]. rewrite <- (sqrt_square (1 + v m)) by lra. apply sqrt_le_1_alt. nra. }
  set (X := IZR (2 ^ 62) * u). assert (XL : v m <= X) by (rewrite RV; apply Rmult_le_compat_r; [lra|apply IZR_le; lia]).
  assert (X8 : 8 <= X). { unfold X. replace 8 with (IZR (M * 8) * u) by (rewrite mult_IZR; nra). apply Rmult_le_compat_r; [lra|apply IZR_le; auto]. }
  assert (Q : v (r * r / M) < 2 * X).
  { apply Rle_lt_trans with (v r * v r); [lra|]. set (x := v m) in *. set (t := sqrt x) in *. clearbody x t. 
    assert (4 * u * (t + u) <= / 2 * (1 + x + / 8)). { clear - SX U U8 X0. nra. } lra. }
  apply (g_mul c HS); auto. fold M. apply (g_valid c HS). rewrite (q_top c HB). split; [apply Z.le_trans with 0%Z; [lia|apply Z.div_pos; nia]|].
  apply lt_IZR. rewrite RV in Q. apply Rmult_lt_reg_r with u; auto. change (2 ^ 63)%Z with (2 * 2 ^ 62)%Z. rewrite mult_IZR. unfold X in Q. lra.
Qed.
(** a square that rounds to zero has root zero *)
Theorem root_of_square m : (M <= m * m)%Z -> (m * m < 2 ^ 62 * M)%Z -> exists p r, fx_mul c m m = Ok p /\ fx_sqrt c p = Ok r /\
  - (u + 2 * u * Rabs (v m)) <= v r * v r - v m * v m <= 5 / 65536 + u + 4 * u * (Rabs (v m) + u) + 5e-16 * (v m * v m).
Proof using HS HB.
  intros L H. destruct s_u as (U & UM & RV & U8). pose proof (g_M c HS) as HM. fold M in HM. pose proof s_62 as H62.
  assert (Hp : (0 < m * m / M < 2 ^ 62)%Z).
  { split; [apply Z.lt_le_trans with (M / M)%Z; [rewrite Z.div_same by lia; lia|apply Z.div_le_mono; lia]|apply Z.div_lt_upper_bound; lia]. }
  assert (Vm : valid c m = true).
  { apply (g_valid c HS). rewrite (q_top c HB). assert (m * m < 2 ^ 62 * 2 ^ 62)%Z by nia.
    assert (Z.abs m < 2 ^ 62)%Z; [|change (2 ^ 63)%Z with (2 * 2 ^ 62)%Z; lia]. destruct (Z.lt_ge_cases (Z.abs m) (2 ^ 62)); auto. exfalso. nia. }
  destruct (sqrt_gen64_real c HS HB (m * m / M) ltac:(lia) (or_introl (proj2 Hp))) as (r & E & Vr & Pr & _ & B1 & B2). fold u v in B1, B2.
  pose proof (s_prod m m) as P. exists (m * m / M)%Z, r. split.
  { apply (g_mul c HS); auto. fold M. apply (g_valid c HS). rewrite (q_top c HB). change (2 ^ 63)%Z with (2 * 2 ^ 62)%Z. lia. }
  split; [exact E|]. set (p := v (m * m / M)) in *. set (x := v m) in *.
  assert (ST : sqrt p <= Rabs x). { rewrite <- sqrt_Rsqr_abs. apply sqrt_le_1_alt. unfold Rsqr. lra. }
  pose proof (sqrt_pos p). set (t := sqrt p) in *. clearbody t p.
  assert (u * t <= u * Rabs x) by (apply Rmult_le_compat_l; lra). split; lra.
Qed.
End S.
