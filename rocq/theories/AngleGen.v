(** degrees and radians for the instantiations of SinGen.v that hold 180. *)
From Coq Require Import ZArith Reals Lia Lra Psatz Bool List.
From Interval Require Import Tactic.
From Verif Require Import Base Fixed Math Spec SpecReal BaseLemmas FixedLemmas CLemmas MathProofs RealLemmas StdProofs SinPoly SinProofs SinThms ExpProofs NumThms ExactProofs SinGen SinGen2 ExpGen.
Import ListNotations.
Open Scope R_scope.

Definition holds180 (c : cfg) : Prop := (cf c + 9 <= bits (ct c))%Z.
Lemma top180 c : sin_cfg c -> holds180 c -> (256 * 2 ^ cf c <= top c)%Z.
Proof.
  intros HS H. pose proof (g_f c HS) as F. unfold top, holds180 in *. change 256%Z with (2 ^ 8)%Z. rewrite <- Z.pow_add_r by lia.
  apply Z.pow_le_mono_r; lia.
Qed.
Lemma pi_of c : sin_cfg c -> exists P, pi_v c = Ok P /\ (3 * 2 ^ cf c < P < 4 * 2 ^ cf c)%Z /\ PI - ulp (cf c) < rval (cf c) P <= PI.
Proof.
  intros HS. pose proof (g_M c HS) as HM.
  assert (H3 : 3.1415 < PI < 3.15) by (split; interval with (i_prec 60)).
  destruct (g_const c (fx_pi c) PI HS ltac:(cbn; tauto) ltac:(lra)) as (P & EP & BP). change (fx_pi c) with (pi_v c) in EP.
  assert (R : 8 <= IZR (2 ^ cf c)) by (apply IZR_le; lia).
  exists P. split; [exact EP|]. split; [split; apply lt_IZR; rewrite mult_IZR; nra|].
  unfold rval, ulp. set (K := IZR (2 ^ cf c)) in *. assert (I : 0 < / K) by (apply Rinv_0_lt_compat; lra).
  assert (E : PI * K * / K = PI) by (field; lra). unfold Rdiv. split.
  - assert (PI * K * / K < (IZR P + 1) * / K) by (apply Rmult_lt_compat_r; lra). lra.
  - rewrite <- E. apply Rmult_le_compat_r; lra.
Qed.
Lemma g_rval_le c a b : sin_cfg c -> rval (cf c) a <= rval (cf c) b -> (a <= b)%Z.
Proof.
  intros HS H. pose proof (g_M c HS) as HM. assert (0 < IZR (2 ^ cf c)) by (apply IZR_lt; lia).
  apply le_IZR. apply Rmult_le_reg_r with (/ IZR (2 ^ cf c)); [apply Rinv_0_lt_compat; auto|exact H].
Qed.
Theorem radians_gen_every c m : sin_cfg c -> holds180 c -> valid c m = true ->
  exists r, fx_radians c m = Ok r /\ valid c r = true /\
    Rabs (rval (cf c) r - rval (cf c) m * (PI / 180)) <= (5 + Rabs (rval (cf c) m) / 180) * ulp (cf c).
Proof.
  intros HS H8 V. pose proof (g_f c HS) as F. pose proof (g_M c HS) as HM. pose proof (top180 c HS H8) as HT.
  destruct (pi_of c HS) as (P & EP & RP & BP).
  assert (H3 : 3.1415 < PI < 3.15) by (split; interval with (i_prec 60)).
  assert (RM : 8 <= IZR (2 ^ cf c)) by (apply IZR_le; lia).
  assert (UU : 0 < ulp (cf c) <= / 8) by (split; [apply Rinv_0_lt_compat; lra|apply Rinv_le_contravar; lra]).
  pose proof (proj1 (g_valid c HS m) V) as B.
  set (f := cf c) in *. set (q := Z.quot (m * 2 ^ f) (180 * 2 ^ f)).
  assert (EQ : q = Z.quot m 180) by (unfold q; apply Z.quot_mul_cancel_r; lia).
  assert (QA : (Z.abs q * 180 <= Z.abs m)%Z).
  { rewrite EQ. rewrite <- Z.quot_abs by lia. change (Z.abs 180) with 180%Z. rewrite Z.mul_comm. apply Z.mul_quot_le; lia. }
  assert (VQ : valid c q = true) by (apply (g_valid c HS); lia).
  assert (VP : valid c P = true) by (apply (g_valid c HS); lia).
  assert (V180 : valid c (180 * 2 ^ f) = true) by (apply (g_valid c HS); lia).
  pose proof (quot_r f m (180 * 2 ^ f) ltac:(lia) ltac:(lia)) as QR. fold q in QR.
  assert (E180 : rval f (180 * 2 ^ f) = 180) by (unfold rval; rewrite mult_IZR; field; lra). rewrite E180 in QR.
  set (r := (q * P / 2 ^ f)%Z).
  assert (LB : (- (Z.abs q * 4) <= r <= Z.abs q * 4)%Z).
  { unfold r. clear - RP HM. split; [apply Z.div_le_lower_bound; nia|apply Z.div_le_upper_bound; nia]. }
  assert (VR : valid c r = true) by (apply (g_valid c HS); lia).
  exists r. split; [|split; auto].
  - unfold fx_radians. rewrite EP. cbn [bind]. rewrite (g_int c HS) by auto. cbn [bind]. rewrite (g_div c HS); auto; [|fold f; lia].
    cbn [bind]. fold f. fold q. rewrite (g_mul c HS); auto.
  - pose proof (g_fm_r f q P ltac:(lia)) as FR. unfold fm in FR. fold r in FR.
    set (vq := rval f q) in *. set (x := rval f m) in *. set (vP := rval f P) in *. set (vr := rval f r) in *. set (u := ulp f) in *.
    replace (vr - x * (PI / 180)) with ((vr - vq * vP) + (vq - x / 180) * vP + x / 180 * (vP - PI)) by field.
    assert (T1 : Rabs (vr - vq * vP) <= u) by (apply Rabs_le; lra).
    assert (T2 : Rabs ((vq - x / 180) * vP) <= 4 * u).
    { rewrite Rabs_mult, (Rabs_pos_eq vP) by lra. pose proof (Rabs_pos (vq - x / 180)). nra. }
    assert (T3 : Rabs (x / 180 * (vP - PI)) <= Rabs x / 180 * u).
    { rewrite Rabs_mult. unfold Rdiv. rewrite Rabs_mult, (Rabs_pos_eq (/ 180)) by lra. pose proof (Rabs_pos x).
      apply Rmult_le_compat_l; [apply Rmult_le_pos; lra|apply Rabs_le; lra]. }
    pose proof (Rabs_triang (vr - vq * vP + (vq - x / 180) * vP) (x / 180 * (vP - PI))).
    pose proof (Rabs_triang (vr - vq * vP) ((vq - x / 180) * vP)). lra.
Qed.
Lemma degrees_gen_form c m : sin_cfg c -> holds180 c -> valid c m = true ->
  Rabs (rval (cf c) m * (180 / PI)) + (180 + 20 * Rabs (rval (cf c) m)) * ulp (cf c) <= rval (cf c) (maxv (ct c)) ->
  exists P r, pi_v c = Ok P /\ (0 < P)%Z /\ r = (Z.quot (m * 2 ^ cf c) P * 180)%Z /\ fx_degrees c m = Ok r /\ valid c r = true /\
    Rabs (rval (cf c) r - rval (cf c) m * (180 / PI)) <= (180 + 20 * Rabs (rval (cf c) m)) * ulp (cf c).
Proof.
  intros HS H8 V HB. pose proof (g_f c HS) as F. pose proof (g_M c HS) as HM. pose proof (top180 c HS H8) as HT.
  destruct (pi_of c HS) as (P & EP & RP & BP).
  assert (H3 : 3.1415 < PI < 3.15) by (split; interval with (i_prec 60)).
  assert (RM : 8 <= IZR (2 ^ cf c)) by (apply IZR_le; lia).
  assert (UU : 0 < ulp (cf c) <= / 8) by (split; [apply Rinv_0_lt_compat; lra|apply Rinv_le_contravar; lra]).
  pose proof (proj1 (g_valid c HS m) V) as B.
  set (f := cf c) in *. set (q := Z.quot (m * 2 ^ f) P).
  assert (QA : (Z.abs q <= Z.abs m / 3)%Z).
  { unfold q. rewrite <- Z.quot_abs by lia. rewrite Z.abs_mul, (Z.abs_eq (2 ^ f)), (Z.abs_eq P) by lia.
    rewrite Z.quot_div_nonneg by (try lia; apply Z.mul_nonneg_nonneg; lia).
    apply Z.div_le_lower_bound; [lia|]. pose proof (Z.mul_div_le (Z.abs m * 2 ^ f) P ltac:(lia)) as D. 
    set (d := (Z.abs m * 2 ^ f / P)%Z) in *. assert (D0 : (0 <= d)%Z) by (apply Z.div_pos; [apply Z.mul_nonneg_nonneg; lia|lia]).
    clear - D D0 RP HM. nia. }
  assert (VQ : valid c q = true).
  { apply (g_valid c HS). assert (Z.abs m / 3 < top c)%Z by (apply Z.div_lt_upper_bound; lia). lia. }
  pose proof (quot_r f m P ltac:(lia) ltac:(lia)) as QR. fold q in QR.
  assert (VP : valid c P = true) by (apply (g_valid c HS); lia).
  assert (V180 : valid c (180 * 2 ^ f) = true) by (apply (g_valid c HS); lia).
  assert (ER : rval f (q * 180) = rval f q * 180) by (unfold rval; rewrite mult_IZR; field; lra).
  assert (A : Rabs (rval f (q * 180) - rval f m * (180 / PI)) <= (180 + 20 * Rabs (rval f m)) * ulp f).
  { rewrite ER. set (x := rval f m) in *. set (vP := rval f P) in *. set (u := ulp f) in *.
    replace (rval f q * 180 - x * (180 / PI)) with (180 * (rval f q - x / vP) + x * (180 * ((PI - vP) * (/ vP * / PI)))) by (field; split; lra).
    eapply Rle_trans; [apply Rabs_triang|]. rewrite (Rabs_mult 180), (Rabs_pos_eq 180), (Rabs_mult x) by lra.
    assert (I : 0 < / vP * / PI <= / 9).
    { rewrite <- Rinv_mult. split; [apply Rinv_0_lt_compat; nra|apply Rinv_le_contravar; nra]. }
    set (w := / vP * / PI) in *. clearbody w.
    assert (J : 0 <= 180 * ((PI - vP) * w) <= 20 * u) by nra. rewrite (Rabs_pos_eq (180 * _)) by lra. pose proof (Rabs_pos x). nra. }
  assert (VR : valid c (q * 180) = true).
  { pose proof A as A'. apply Rabs_inv_le in A. apply (g_valid c HS). rewrite (g_max c HS) in HB.
    pose proof (Rle_abs (rval f m * (180 / PI))) as L1. pose proof (Rle_abs (- (rval f m * (180 / PI)))) as L2. rewrite Rabs_Ropp in L2.
    assert (U1 : rval f (q * 180) <= rval f (top c - 1)) by lra.
    assert (U2 : rval f (- (q * 180)) <= rval f (top c - 1)) by (rewrite rval_opp; lra).
    apply (g_rval_le c _ _ HS) in U1. apply (g_rval_le c _ _ HS) in U2. lia. }
  exists P, (q * 180)%Z. split; [exact EP|]. split; [lia|]. split; [reflexivity|]. split; [|split; auto].
  unfold fx_degrees. rewrite EP. cbn [bind]. rewrite (g_int c HS) by auto. cbn [bind]. rewrite (g_div c HS); auto; [|lia].
  cbn [bind]. fold f. fold q. assert (E : (q * (180 * 2 ^ f) / 2 ^ f = q * 180)%Z).
  { rewrite Z.mul_assoc. apply Z.div_mul. lia. }
  rewrite (g_mul c HS); auto; fold f; rewrite E; auto.
Qed.
Theorem degrees_gen_every c m : sin_cfg c -> holds180 c -> valid c m = true ->
  Rabs (rval (cf c) m * (180 / PI)) + (180 + 20 * Rabs (rval (cf c) m)) * ulp (cf c) <= rval (cf c) (maxv (ct c)) ->
  exists r, fx_degrees c m = Ok r /\ valid c r = true /\
    Rabs (rval (cf c) r - rval (cf c) m * (180 / PI)) <= (180 + 20 * Rabs (rval (cf c) m)) * ulp (cf c).
Proof. intros HS H8 V HB. destruct (degrees_gen_form c m HS H8 V HB) as (P & r & _ & _ & _ & H). exists r. exact H. Qed.
(** 180 does not fit next to 24 (56) fraction bits and wraps to -76 *)
Definition Q24 : cfg := {| ct := int32; ci := int64; cf := 24; cr := false |}.
Definition Q56 : cfg := {| ct := int64; ci := int128; cf := 56; cr := false |}.
Lemma angles_wide : wf Q24 = true /\ wf Q56 = true /\
  fx_radians Q24 (2 ^ 24) = Ok (-693513)%Z /\ 0.058 <= PI / 180 - rval 24 (-693513) /\
  fx_radians Q56 (2 ^ 56) = Ok (-2978626421906712)%Z /\ 0.058 <= PI / 180 - rval 56 (-2978626421906712) /\
  fx_degrees Q24 (2 ^ 23) = Ok (-202933376)%Z /\ 40 <= / 2 * (180 / PI) - rval 24 (-202933376).
Proof.
  unfold rval. change (IZR (2 ^ 24)) with 16777216. change (IZR (2 ^ 56)) with 72057594037927936.
  repeat split; try (vm_compute; reflexivity); interval.
Qed.
