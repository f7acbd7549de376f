(** Consequences of the accuracy of sin and cos: the Pythagorean identity and tan. *)
From Coq Require Import ZArith QArith Reals Lia Lra Psatz Bool.
From Interval Require Import Tactic.
From Verif Require Import Base Fixed Math Spec SpecLemmas SpecReal BaseLemmas FixedLemmas CLemmas MathProofs PowProofs RealLemmas StdProofs SinPoly SinProofs SinThms RealThms.
Open Scope R_scope.

(** * sin^2 + cos^2 *)
Lemma pyth_real (a b s c e : R) : s * s + c * c = 1 -> Rabs (a - s) <= e -> Rabs (b - c) <= e ->
  Rabs (a * a + b * b - 1) <= 2.8285 * e + 2 * (e * e).
Proof.
  intros P A B. apply Rabs_inv_le in A. apply Rabs_inv_le in B. set (u := a - s) in *. set (v := b - c) in *.
  assert (E0 : 0 <= e) by lra.
  assert (SC : forall x y, x * x = 1 -> y * y = 1 -> x * s + y * c <= 1.41425).
  { intros x y X Y. assert (0 <= (x * c - y * s) ^ 2) by apply pow2_ge_0.
    assert ((x * s + y * c) ^ 2 <= 2).
    { replace 2 with ((x * x + y * y) * (s * s + c * c)) by (rewrite X, Y, P; ring).
      replace ((x * x + y * y) * (s * s + c * c)) with ((x * s + y * c) ^ 2 + (x * c - y * s) ^ 2) by ring. lra. }
    assert (~ 1.41425 < x * s + y * c); [intros G; nra|lra]. }
  pose proof (SC 1 1 ltac:(ring) ltac:(ring)). pose proof (SC 1 (-1) ltac:(ring) ltac:(ring)).
  pose proof (SC (-1) 1 ltac:(ring) ltac:(ring)). pose proof (SC (-1) (-1) ltac:(ring) ltac:(ring)). clear SC.
  assert (AB : Rabs s + Rabs c <= 1.41425) by (unfold Rabs; destruct (Rcase_abs s), (Rcase_abs c); lra).
  replace (a * a + b * b - 1) with (2 * (s * u + c * v) + (u * u + v * v)) by (unfold u, v; nra).
  assert (Rabs (s * u) <= Rabs s * e) by (rewrite Rabs_mult; apply Rmult_le_compat_l; [apply Rabs_pos|apply Rabs_le; lra]).
  assert (Rabs (c * v) <= Rabs c * e) by (rewrite Rabs_mult; apply Rmult_le_compat_l; [apply Rabs_pos|apply Rabs_le; lra]).
  apply Rabs_inv_le in H3. apply Rabs_inv_le in H4.
  assert (u * u <= e * e) by nra. assert (v * v <= e * e) by nra.
  assert (0 <= u * u) by nra. assert (0 <= v * v) by nra.
  assert ((Rabs s + Rabs c) * e <= 1.41425 * e) by (apply Rmult_le_compat_r; auto).
  apply Rabs_le. split; lra.
Qed.

(** the two multiplications and the addition of the identity, for values of magnitude up to 1.001 *)
Lemma pyth_run c s cs : std c -> (Z.abs s * 1000 <= 1001 * 2 ^ cf c)%Z -> (Z.abs cs * 1000 <= 1001 * 2 ^ cf c)%Z ->
  exists a b r, fx_mul c s s = Ok a /\ fx_mul c cs cs = Ok b /\ fx_add c a b = Ok r /\
  rval (cf c) r <= rval (cf c) s * rval (cf c) s + rval (cf c) cs * rval (cf c) cs < rval (cf c) r + 2 * ulp (cf c).
Proof.
  intros HS A B. pose proof (std_M c HS) as HM. pose proof (std_wf c HS) as W. pose proof (std_nr c HS) as NR.
  assert (F0 : (0 <= cf c)%Z) by (destruct HS as [-> | ->]; cbn; lia).
  set (M := (2 ^ cf c)%Z) in *.
  assert (VC : forall k, (Z.abs k <= 3 * M)%Z -> valid c k = true).
  { intros k K. apply std_valid; auto. fold M. revert HM K. destruct HS as [-> | ->]; unfold M; cbn [cf F32 F64]; 
      [change (2 ^ 16)%Z with 65536%Z|change (2 ^ 32)%Z with 4294967296%Z]; lia. }
  assert (SQ : forall k, (Z.abs k * 1000 <= 1001 * M)%Z -> (0 <= k * k / M <= 1003 * M / 1000)%Z).
  { intros k K. assert (0 < M)%Z by lia. assert (0 <= k * k)%Z by nia. split; [apply Z.div_pos; lia|].
    apply Z.div_le_lower_bound; [lia|].
    assert (k * k / M * M <= k * k)%Z by (rewrite Z.mul_comm; apply Z.mul_div_le; lia).
    assert (Z.abs k * Z.abs k = k * k)%Z by (rewrite <- Z.abs_mul; apply Z.abs_eq; lia).
    set (q := (k * k / M)%Z) in *. set (n := Z.abs k) in *.
    assert ((n * 1000) * (n * 1000) <= (1001 * M) * (1001 * M))%Z by (apply Z.mul_le_mono_nonneg; unfold n; lia).
    assert (q * M * 1000000 <= 1002001 * M * M)%Z by (clear - H1 H2 H3; lia). assert (q * 1000000 <= 1002001 * M)%Z by (apply (Z.mul_le_mono_pos_r _ _ M H); clear - H4; lia). clear - H H5. lia. }
  pose proof (SQ s A) as SA. pose proof (SQ cs B) as SB.
  assert (D3 : (1003 * M / 1000 * 2 <= 3 * M)%Z) by (pose proof (Z.mul_div_le (1003 * M) 1000 ltac:(lia)); lia).
  exists (s * s / M)%Z, (cs * cs / M)%Z, (s * s / M + cs * cs / M)%Z.
  assert (V1 : valid c (s * s / M) = true) by (apply VC; clear - SA D3 HM; lia).
  assert (V2 : valid c (cs * cs / M) = true) by (apply VC; clear - SB D3 HM; lia).
  assert (V3 : valid c (s * s / M + cs * cs / M) = true) by (apply VC; clear - SA SB D3 HM; lia).
  split; [apply s_mul; auto; apply VC; lia|]. split; [apply s_mul; auto; apply VC; lia|].
  split; [apply s_add; auto|].
  pose proof (div_real (s * s) M ltac:(lia)) as D1. pose proof (div_real (cs * cs) M ltac:(lia)) as D2.
  pose proof (pow2_gt0 (cf c) F0) as MP. fold M in MP.
  unfold rval, ulp. fold M. rewrite plus_IZR. rewrite mult_IZR in D1, D2. unfold Rdiv in *.
  assert (I : 0 < / IZR M) by (apply Rinv_0_lt_compat; auto).
  set (i := / IZR M) in *. set (x := IZR (s * s / M)) in *. set (y := IZR (cs * cs / M)) in *.
  replace (IZR s * i * (IZR s * i) + IZR cs * i * (IZR cs * i)) with ((IZR s * IZR s * i + IZR cs * IZR cs * i) * i) by ring.
  split; [apply Rmult_le_compat_r; lra|].
  replace ((x + y) * i + 2 * i) with ((x + y + 2) * i) by ring. apply Rmult_lt_compat_r; lra.
Qed.

Lemma pyth32_thm m : valid F32 m = true -> m <> MIN32 ->
  exists s cs a b r, fx_sin F32 m = Ok s /\ fx_cos F32 m = Ok cs /\ fx_mul F32 s s = Ok a /\ fx_mul F32 cs cs = Ok b /\
  fx_add F32 a b = Ok r /\ Rabs (rval 16 r - 1) <= (56 + 0.42 * Rabs (rval 16 m)) * ulp 16.
Proof.
  intros V N. exists (sin32 m), (sin32 (cos_arg 102943 308831 m)).
  pose proof (sin32_int m) as I1. pose proof (sin32_int (cos_arg 102943 308831 m)) as I2.
  destruct (pyth_run F32 (sin32 m) (sin32 (cos_arg 102943 308831 m)) s32) as (a & b & r & E1 & E2 & E3 & B);
    try (cbn [cf F32]; change (2 ^ 16)%Z with 65536%Z; lia).
  exists a, b, r. split; [apply sin32_eq; auto|]. split; [apply cos32_eq; auto|]. repeat (split; [assumption|]).
  cbn [cf F32] in B. pose proof (sin32_all m) as A1. pose proof (cos32_acc m) as A2.
  set (x := rval 16 m) in *. assert (XM : Rabs x <= 32768).
  { apply valid32 in V. unfold x. rewrite rval_abs. unfold rval. change (IZR (2 ^ 16)) with 65536.
    assert (IZR (Z.abs m) <= 2147483648) by (apply IZR_le; lia). lra. }
  assert (U : ulp 16 = / 65536) by reflexivity. rewrite U in *. pose proof (Rabs_pos x) as X0.
  pose proof (sin2_cos2 x) as P. unfold Rsqr in P.
  pose proof (pyth_real (rval 16 (sin32 m)) (rval 16 (sin32 (cos_arg 102943 308831 m))) (sin x) (cos x) ((18 + 0.14 * Rabs x) * / 65536) P
    ltac:(eapply Rle_trans; [exact A1|lra]) A2) as Q.
  set (ax := Rabs x) in *. clearbody ax. set (p := rval 16 (sin32 m)) in *. set (q := rval 16 (sin32 (cos_arg 102943 308831 m))) in *.
  clear - Q B X0 XM.
  assert (((18 + 0.14 * ax) * / 65536) * ((18 + 0.14 * ax) * / 65536) <= ((18 + 0.14 * ax) * / 65536) * 0.0703) by (apply Rmult_le_compat_l; lra).
  apply Rabs_inv_le in Q. apply Rabs_le. split; lra.
Qed.
Lemma pyth64_thm m : valid F64 m = true -> m <> MIN64 ->
  exists s cs a b r, fx_sin F64 m = Ok s /\ fx_cos F64 m = Ok cs /\ fx_mul F64 s s = Ok a /\ fx_mul F64 cs cs = Ok b /\
  fx_add F64 a b = Ok r /\ Rabs (rval 32 r - 1) <= 9.1e-4 + 0.022 * Rabs (rval 32 m) * ulp 32.
Proof.
  intros V N. exists (sin64 m), (sin64 (cos_arg 6746518852 20239556556 m)).
  pose proof (sin64_int m) as I1. pose proof (sin64_int (cos_arg 6746518852 20239556556 m)) as I2.
  destruct (pyth_run F64 (sin64 m) (sin64 (cos_arg 6746518852 20239556556 m)) s64) as (a & b & r & E1 & E2 & E3 & B);
    try (cbn [cf F64]; change (2 ^ 32)%Z with 4294967296%Z; lia).
  exists a, b, r. split; [apply sin64_eq; auto|]. split; [apply cos64_eq; auto|]. repeat (split; [assumption|]).
  cbn [cf F64] in B. pose proof (sin64_all m) as A1. pose proof (cos64_acc m) as A2.
  set (x := rval 32 m) in *. assert (XM : Rabs x <= 2147483648).
  { apply valid64 in V. unfold x. rewrite rval_abs. unfold rval. change (IZR (2 ^ 32)) with 4294967296.
    assert (IZR (Z.abs m) <= 9223372036854775808) by (apply IZR_le; lia). lra. }
  assert (U : ulp 32 = / 4294967296) by reflexivity. rewrite U in *. pose proof (Rabs_pos x) as X0.
  pose proof (sin2_cos2 x) as P. unfold Rsqr in P.
  pose proof (pyth_real (rval 32 (sin64 m)) (rval 32 (sin64 (cos_arg 6746518852 20239556556 m))) (sin x) (cos x) (3.2e-4 + 0.0074 * Rabs x * / 4294967296) P
    ltac:(eapply Rle_trans; [exact A1|lra]) A2) as Q.
  set (ax := Rabs x) in *. clearbody ax. set (p := rval 32 (sin64 m)) in *. set (q := rval 32 (sin64 (cos_arg 6746518852 20239556556 m))) in *.
  clear - Q B X0 XM. set (e := 3.2e-4 + 0.0074 * ax * / 4294967296) in *.
  assert (e * e <= e * 0.0041) by (apply Rmult_le_compat_l; unfold e; lra).
  apply Rabs_inv_le in Q. apply Rabs_le. unfold e in *. split; lra.
Qed.

(** * tan *)
Lemma tan_real (a b s c e u : R) (q : R) : s * s + c * c = 1 -> Rabs (a - s) <= e -> Rabs (b - c) <= e -> 8 * e <= Rabs c -> c <> 0 ->
  Rabs (q - a / b) <= u -> Rabs (q - s / c) <= 1.62 * e / (c * c) + u.
Proof.
  intros P A B E C Q.
  assert (c0 : 0 < Rabs c) by (apply Rabs_pos_lt; auto).
  assert (BL : 7 / 8 * Rabs c <= Rabs b).
  { pose proof (Rabs_triang (c - b) b) as T. replace (c - b + b) with c in T by ring. rewrite Rabs_minus_sym in B. lra. }
  assert (b0 : b <> 0) by (intros ->; rewrite Rabs_R0 in BL; lra).
  assert (E0 : 0 <= e) by (pose proof (Rabs_pos (a - s)); lra).
  assert (SC : Rabs s + Rabs c <= 1.41425).
  { assert (S2 : Rabs s * Rabs s = s * s) by (rewrite <- Rabs_mult; apply Rabs_right, Rle_ge, Rle_0_sqr).
    assert (C2 : Rabs c * Rabs c = c * c) by (rewrite <- Rabs_mult; apply Rabs_right, Rle_ge, Rle_0_sqr).
    pose proof (Rabs_pos s). assert (0 <= (Rabs s - Rabs c) * (Rabs s - Rabs c)) by apply Rle_0_sqr.
    set (p := Rabs s) in *. set (r := Rabs c) in *. clearbody p r.
    assert ((p + r) * (p + r) <= 2).
    { replace ((p + r) * (p + r)) with (2 * (p * p + r * r) - (p - r) * (p - r)) by ring. rewrite S2, C2, P. lra. }
    assert (~ 1.41425 < p + r); [intros G; clear - G H1; nra|lra]. }
  assert (D : a / b - s / c = ((a - s) * c - s * (b - c)) / (b * c)) by (field; auto).
  assert (N : Rabs ((a - s) * c - s * (b - c)) <= e * 1.41425).
  { unfold Rminus at 1. eapply Rle_trans; [apply Rabs_triang|]. rewrite Rabs_Ropp, !Rabs_mult.
    pose proof (Rmult_le_compat_r (Rabs c) _ _ (Rabs_pos c) A). pose proof (Rmult_le_compat_l (Rabs s) _ _ (Rabs_pos s) B). nra. }
  assert (CC : Rabs c * Rabs c = c * c) by (rewrite <- Rabs_mult; apply Rabs_right, Rle_ge, Rle_0_sqr).
  assert (DB : 7 / 8 * (c * c) <= Rabs (b * c)) by (rewrite Rabs_mult, <- CC; nra).
  assert (c2 : 0 < c * c) by nra.
  assert (Rabs (a / b - s / c) <= 1.62 * e / (c * c)).
  { rewrite D. unfold Rdiv. rewrite Rabs_mult, Rabs_inv.
    apply Rle_trans with (e * 1.41425 * / (7 / 8 * (c * c))).
    - apply Rmult_le_compat; auto using Rabs_pos. { left. apply Rinv_0_lt_compat. lra. } apply Rinv_le_contravar; lra.
    - rewrite Rinv_mult. assert (0 <= e * / (c * c)) by (apply Rmult_le_pos; auto; left; apply Rinv_0_lt_compat; auto).
      replace (e * 1.41425 * (/ (7 / 8) * / (c * c))) with (1.41425 * 8 / 7 * (e * / (c * c))) by (field; lra).
      replace (1.62 * e * / (c * c)) with (1.62 * (e * / (c * c))) by ring. apply Rmult_le_compat_r; lra. }
  replace (q - s / c) with ((a / b - s / c) + (q - a / b)) by ring.
  eapply Rle_trans; [apply Rabs_triang|]. lra.
Qed.
Lemma quot_rval f s cs : (0 <= f)%Z -> cs <> 0%Z -> Rabs (rval f (Z.quot (s * 2 ^ f) cs) - rval f s / rval f cs) <= ulp f.
Proof.
  intros F N. pose proof (pow2_gt0 f F) as MP. pose proof (quot_real (s * 2 ^ f) cs N) as Q. unfold rval, ulp.
  assert (C : IZR cs <> 0) by (apply not_0_IZR; auto).
  set (q := IZR (Z.quot (s * 2 ^ f) cs)) in *. rewrite mult_IZR in Q. set (M := IZR (2 ^ f)) in *.
  replace (q / M - IZR s / M / (IZR cs / M)) with ((q - IZR s * M / IZR cs) * / M) by (field; split; lra).
  rewrite Rabs_mult, (Rabs_right (/ M)) by (left; apply Rinv_0_lt_compat; auto).
  rewrite <- (Rmult_1_l (/ M)) at 2. apply Rmult_le_compat_r; [left; apply Rinv_0_lt_compat; auto|lra].
Qed.
Lemma tan32_acc m : valid F32 m = true -> m <> MIN32 ->
  (144 + 1.12 * Rabs (rval 16 m)) * ulp 16 <= Rabs (cos (rval 16 m)) ->
  exists r, fx_tan F32 m = Ok r /\ valid F32 r = true /\
  Rabs (rval 16 r - tan (rval 16 m)) <= ((30 + 0.23 * Rabs (rval 16 m)) / (cos (rval 16 m) * cos (rval 16 m)) + 1) * ulp 16.
Proof.
  intros V N H. destruct (tan32_thm m V N) as (s & cs & E1 & E2 & _ & _ & T).
  rewrite (sin32_eq m V N) in E1. rewrite (cos32_eq m V) in E2. injection E1 as <-. injection E2 as <-.
  pose proof (sin32_all m) as A1. pose proof (cos32_acc m) as A2. pose proof (sin32_int m) as I1.
  set (cs := sin32 (cos_arg 102943 308831 m)) in *. set (s := sin32 m) in *. set (x := rval 16 m) in *.
  pose proof (Rabs_pos x) as X0. assert (U : ulp 16 = / 65536) by reflexivity. pose proof (sin2_cos2 x) as P. unfold Rsqr in P.
  assert (C0 : 0 < Rabs (cos x)) by (rewrite U in H; lra).
  assert (CN : cos x <> 0) by (intros E; rewrite E, Rabs_R0 in C0; lra).
  assert (G : (2 < Z.abs cs)%Z).
  { apply lt_IZR. rewrite abs_IZR. pose proof (Rabs_triang (cos x - rval 16 cs) (rval 16 cs)) as TR.
    replace (cos x - rval 16 cs + rval 16 cs) with (cos x) in TR by ring. rewrite Rabs_minus_sym in A2. rewrite U in *.
    assert (E : Rabs (rval 16 cs) = Rabs (IZR cs) * / 65536) by (unfold rval; change (IZR (2 ^ 16)) with 65536; unfold Rdiv; rewrite Rabs_mult, (Rabs_right (/ 65536)); lra).
    lra. }
  destruct (T G) as (q & Eq & I). exists q. split; auto. apply is_trunc_div in I; try lia.
  split.
  - apply valid32. subst q. change (2 ^ 16)%Z with 65536%Z. cut (Z.abs (Z.quot (s * 65536) cs) <= 2147483647)%Z; [clear; lia|].
    rewrite <- (Z.quot_abs (s * 65536) cs) by lia. rewrite Z.abs_mul.
    rewrite Z.quot_div_nonneg by lia. pose proof (Z.div_le_compat_l (Z.abs s * Z.abs 65536) 3 (Z.abs cs) ltac:(lia) ltac:(lia)) as L.
    pose proof (Z.mul_div_le (Z.abs s * Z.abs 65536) 3 ltac:(lia)) as L2. change (Z.abs 65536) with 65536%Z in *. clear - L L2 I1. lia.
  - pose proof (quot_rval 16 s cs ltac:(lia) ltac:(lia)) as Q. rewrite <- I in Q.
    pose proof (tan_real (rval 16 s) (rval 16 cs) (sin x) (cos x) ((18 + 0.14 * Rabs x) * ulp 16) (ulp 16) (rval 16 q) P) as TT.
    change (tan x) with (sin x / cos x). eapply Rle_trans; [apply TT; auto|].
    + eapply Rle_trans; [exact A1|]. rewrite U. lra.
    + rewrite U in *. lra.
    + assert (0 < / (cos x * cos x)) by (apply Rinv_0_lt_compat; nra). unfold Rdiv. set (w := / (cos x * cos x)) in *. rewrite U.
      assert (0 <= Rabs x * w) by (apply Rmult_le_pos; lra). lra.
Qed.

(** away from its zeros cos has the fine error bound in fixed64 too *)
Lemma cos64_fine m : 1.6e-4 <= Rabs (cos (rval 32 m)) ->
  Rabs (rval 32 (sin64 (cos_arg 6746518852 20239556556 m)) - cos (rval 32 m)) <= 3.72e-6 + 0.0074 * Rabs (rval 32 m) * ulp 32.
Proof.
  intros H.
  assert (U : ulp 32 = / 4294967296) by reflexivity.
  assert (B : Rabs (sin (rval 32 (cos_arg 6746518852 20239556556 m)) - cos (rval 32 m)) <= 0.8 * ulp 32).
  { apply cos_sin_arg; [lia| |]; unfold rval, ulp; change (2 ^ 32)%Z with 4294967296%Z; interval with (i_prec 100). }
  pose proof (cos_arg_abs 32 6746518852 20239556556 m ltac:(lia)) as D.
  assert (Rabs (rval 32 6746518852) <= 1.6) by (unfold rval; change (2 ^ 32)%Z with 4294967296%Z; interval with (i_prec 60)).
  assert (Rabs (rval 32 20239556556) <= 4.8) by (unfold rval; change (2 ^ 32)%Z with 4294967296%Z; interval with (i_prec 60)).
  set (k := cos_arg 6746518852 20239556556 m) in *.
  assert (G : (644245 <= Z.abs k)%Z).
  { destruct (Z.lt_ge_cases (Z.abs k) 644245) as [L|]; [exfalso|lia].
    assert (Rabs (rval 32 k) <= 1.51e-4).
    { rewrite rval_abs. unfold rval. change (IZR (2 ^ 32)) with 4294967296. assert (IZR (Z.abs k) <= 644245) by (apply IZR_le; lia). lra. }
    pose proof (sin_lip (rval 32 k) 0) as SL. rewrite sin_0, !Rminus_0_r in SL.
    pose proof (Rabs_triang (cos (rval 32 m) - sin (rval 32 k)) (sin (rval 32 k))) as TR.
    replace (cos (rval 32 m) - sin (rval 32 k) + sin (rval 32 k)) with (cos (rval 32 m)) in TR by ring.
    rewrite Rabs_minus_sym in B. rewrite U in B. lra. }
  pose proof (sin64_acc k G) as A.
  set (s := rval 32 (sin64 k)) in *. set (x := rval 32 k) in *.
  replace (s - cos (rval 32 m)) with ((s - sin x) + (sin x - cos (rval 32 m))) by ring.
  eapply Rle_trans; [apply Rabs_triang|]. rewrite U in *. lra.
Qed.
Lemma tan64_acc m : valid F64 m = true -> m <> MIN64 -> (0 <= m \/ 644245 <= Z.abs m)%Z ->
  1.6e-4 + 0.06 * Rabs (rval 32 m) * ulp 32 <= Rabs (cos (rval 32 m)) ->
  exists r, fx_tan F64 m = Ok r /\ valid F64 r = true /\
  Rabs (rval 32 r - tan (rval 32 m)) <= (6.1e-6 + 0.0121 * Rabs (rval 32 m) * ulp 32) / (cos (rval 32 m) * cos (rval 32 m)).
Proof.
  intros V N NT H. destruct (tan64_thm m V N) as (s & cs & E1 & E2 & _ & _ & T).
  rewrite (sin64_eq m V N) in E1. rewrite (cos64_eq m V) in E2. injection E1 as <-. injection E2 as <-.
  assert (U : ulp 32 = / 4294967296) by reflexivity. pose proof (Rabs_pos (rval 32 m)) as X0.
  pose proof (cos64_fine m ltac:(rewrite U in H; lra)) as A2. pose proof (sin64_int m) as I1.
  assert (A1 : Rabs (rval 32 (sin64 m) - sin (rval 32 m)) <= 3.71e-6 + 0.0074 * Rabs (rval 32 m) * ulp 32).
  { destruct (sin64_thm m V N) as (r & E & _ & _ & F). rewrite (sin64_eq m V N) in E. injection E as <-. auto. }
  set (cs := sin64 (cos_arg 6746518852 20239556556 m)) in *. set (s := sin64 m) in *. set (x := rval 32 m) in *.
  pose proof (sin2_cos2 x) as P. unfold Rsqr in P.
  assert (C0 : 0 < Rabs (cos x)) by (rewrite U in H; lra).
  assert (CN : cos x <> 0) by (intros E; rewrite E, Rabs_R0 in C0; lra).
  assert (C1 : cos x * cos x <= 1) by (pose proof (Rle_0_sqr (sin x)); unfold Rsqr in *; lra).
  assert (G : (2 < Z.abs cs)%Z).
  { apply lt_IZR. rewrite abs_IZR. pose proof (Rabs_triang (cos x - rval 32 cs) (rval 32 cs)) as TR.
    replace (cos x - rval 32 cs + rval 32 cs) with (cos x) in TR by ring. rewrite Rabs_minus_sym in A2. rewrite U in *.
    assert (E : Rabs (rval 32 cs) = Rabs (IZR cs) * / 4294967296) by (unfold rval; change (IZR (2 ^ 32)) with 4294967296; unfold Rdiv; rewrite Rabs_mult, (Rabs_right (/ 4294967296)); lra).
    lra. }
  destruct (T G) as (q & Eq & I). exists q. split; auto. apply is_trunc_div in I; try lia.
  split.
  - apply valid64. subst q. change (2 ^ 32)%Z with 4294967296%Z. cut (Z.abs (Z.quot (s * 4294967296) cs) <= 9223372036854775807)%Z; [clear; lia|].
    rewrite <- (Z.quot_abs (s * 4294967296) cs) by lia. rewrite Z.abs_mul.
    rewrite Z.quot_div_nonneg by lia. pose proof (Z.div_le_compat_l (Z.abs s * Z.abs 4294967296) 3 (Z.abs cs) ltac:(lia) ltac:(lia)) as L.
    pose proof (Z.mul_div_le (Z.abs s * Z.abs 4294967296) 3 ltac:(lia)) as L2. change (Z.abs 4294967296) with 4294967296%Z in *. clear - L L2 I1. lia.
  - pose proof (quot_rval 32 s cs ltac:(lia) ltac:(lia)) as Q. rewrite <- I in Q.
    pose proof (tan_real (rval 32 s) (rval 32 cs) (sin x) (cos x) (3.72e-6 + 0.0074 * Rabs x * ulp 32) (ulp 32) (rval 32 q) P) as TT.
    change (tan x) with (sin x / cos x). eapply Rle_trans; [apply TT; auto|].
    + eapply Rle_trans; [exact A1|]. rewrite U. lra.
    + rewrite U in *. lra.
    + assert (W : 0 < / (cos x * cos x)) by (apply Rinv_0_lt_compat; nra).
      assert (W1 : 1 <= / (cos x * cos x)) by (rewrite <- Rinv_1 at 1; apply Rinv_le_contravar; nra).
      unfold Rdiv. set (w := / (cos x * cos x)) in *. rewrite U.
      assert (0 <= Rabs x * w) by (apply Rmult_le_pos; lra). lra.
Qed.
