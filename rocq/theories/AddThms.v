(** sin and cos of a sum. *)
From Coq Require Import ZArith QArith Reals Lia Lra Psatz Bool.
From Interval Require Import Tactic.
From Verif Require Import Base Fixed Math Spec SpecLemmas SpecReal BaseLemmas FixedLemmas CLemmas MathProofs PowProofs RealLemmas StdProofs SinPoly SinProofs SinThms RealThms DerivedReal.
Open Scope R_scope.

Lemma abs_sum x : Rabs (sin x) + Rabs (cos x) <= 1.4143.
Proof.
  pose proof (sin2_cos2 x) as P. unfold Rsqr in P. set (s := Rabs (sin x)). set (c := Rabs (cos x)).
  assert (S : s * s = sin x * sin x) by (unfold s; rewrite <- Rabs_mult; apply Rabs_pos_eq; nra).
  assert (C : c * c = cos x * cos x) by (unfold c; rewrite <- Rabs_mult; apply Rabs_pos_eq; nra).
  pose proof (Rabs_pos (sin x)). pose proof (Rabs_pos (cos x)). fold s in H. fold c in H0.
  destruct (Rle_lt_dec (s + c) 1.4143); auto. exfalso. assert (N : 0 <= (s - c) * (s - c)) by apply Rle_0_sqr.
  assert (L : 1.4143 * 1.4143 < (s + c) * (s + c)) by (apply Rmult_gt_0_lt_compat; lra). lra.
Qed.
Lemma prod_err x x' y y' d e : Rabs (x' - x) <= d -> Rabs (y' - y) <= e ->
  Rabs (x' * y' - x * y) <= Rabs x * e + Rabs y * d + d * e.
Proof.
  intros D E. replace (x' * y' - x * y) with (x * (y' - y) + y * (x' - x) + (x' - x) * (y' - y)) by ring.
  pose proof (Rabs_pos x). pose proof (Rabs_pos y). pose proof (Rabs_pos (x' - x)). pose proof (Rabs_pos (y' - y)).
  eapply Rle_trans; [apply Rabs_triang|]. apply Rplus_le_compat.
  - eapply Rle_trans; [apply Rabs_triang|]. rewrite !Rabs_mult. apply Rplus_le_compat; apply Rmult_le_compat_l; auto.
  - rewrite Rabs_mult. apply Rmult_le_compat; auto.
Qed.
(** sin a cos b + cos a sin b and cos a cos b - sin a sin b from approximations *)
Lemma sum_err a b sa ca sb cb d e : Rabs (sa - sin a) <= d -> Rabs (ca - cos a) <= d -> Rabs (sb - sin b) <= e -> Rabs (cb - cos b) <= e ->
  Rabs (sa * cb + ca * sb - sin (a + b)) <= 1.4143 * (d + e) + 2 * (d * e) /\
  Rabs (ca * cb - sa * sb - cos (a + b)) <= 1.4143 * (d + e) + 2 * (d * e).
Proof.
  intros SA CA SB CB. pose proof (abs_sum a) as A. pose proof (abs_sum b) as B.
  assert (D0 : 0 <= d) by (eapply Rle_trans; [apply Rabs_pos|exact SA]). assert (E0 : 0 <= e) by (eapply Rle_trans; [apply Rabs_pos|exact SB]).
  pose proof (prod_err _ _ _ _ _ _ SA CB) as P1. pose proof (prod_err _ _ _ _ _ _ CA SB) as P2.
  pose proof (prod_err _ _ _ _ _ _ CA CB) as P3. pose proof (prod_err _ _ _ _ _ _ SA SB) as P4.
  assert (X : (Rabs (sin a) + Rabs (cos a)) * e <= 1.4143 * e) by (apply Rmult_le_compat_r; auto).
  assert (Y : (Rabs (sin b) + Rabs (cos b)) * d <= 1.4143 * d) by (apply Rmult_le_compat_r; auto).
  rewrite sin_plus, cos_plus. apply Rabs_inv_le in P1, P2, P3, P4. split; apply Rabs_le; split; lra.
Qed.

(** two products and their sum or difference, of values of magnitude up to 1.001 *)
Lemma two_prods c p q r s : std c -> (Z.abs p * 1000 <= 1001 * 2 ^ cf c)%Z -> (Z.abs q * 1000 <= 1001 * 2 ^ cf c)%Z ->
  (Z.abs r * 1000 <= 1001 * 2 ^ cf c)%Z -> (Z.abs s * 1000 <= 1001 * 2 ^ cf c)%Z ->
  exists x y z w, fx_mul c p q = Ok x /\ fx_mul c r s = Ok y /\ fx_add c x y = Ok z /\ fx_sub c x y = Ok w /\
  Rabs (rval (cf c) z - (rval (cf c) p * rval (cf c) q + rval (cf c) r * rval (cf c) s)) <= 2 * ulp (cf c) /\
  Rabs (rval (cf c) w - (rval (cf c) p * rval (cf c) q - rval (cf c) r * rval (cf c) s)) <= ulp (cf c).
Proof.
  intros HS A B C D. pose proof (std_M c HS) as HM. pose proof (std_wf c HS) as W. pose proof (std_nr c HS) as NR.
  assert (F0 : (0 <= cf c)%Z) by (destruct HS as [-> | ->]; cbn; lia).
  set (M := (2 ^ cf c)%Z) in *.
  assert (VC : forall k, (Z.abs k <= 3 * M)%Z -> valid c k = true).
  { intros k K. apply std_valid; auto. fold M. revert HM K. destruct HS as [-> | ->]; unfold M; cbn [cf F32 F64]; 
      [change (2 ^ 16)%Z with 65536%Z|change (2 ^ 32)%Z with 4294967296%Z]; lia. }
  assert (PQ : forall k l, (Z.abs k * 1000 <= 1001 * M)%Z -> (Z.abs l * 1000 <= 1001 * M)%Z -> (Z.abs (k * l / M) * 100 <= 101 * M + 100)%Z).
  { intros k l K L. assert (MP : (0 < M)%Z) by lia. 
    pose proof (Z.div_mod (k * l) M ltac:(lia)) as DM. pose proof (Z.mod_pos_bound (k * l) M MP) as MB.
    assert (AB : (Z.abs (k * l) * 1000000 <= 1002001 * M * M)%Z).
    { rewrite Z.abs_mul. pose proof (Z.mul_le_mono_nonneg (Z.abs k * 1000) (1001 * M) (Z.abs l * 1000) (1001 * M) ltac:(lia) K ltac:(lia) L). lia. }
    set (t := (k * l / M)%Z) in *. set (n := (k * l)%Z) in *. set (rr := (n mod M)%Z) in *. clearbody t n rr.
    assert (Z.abs (M * t) <= Z.abs n + M)%Z by lia. rewrite Z.abs_mul, (Z.abs_eq M) in H by lia.
    assert (M * (Z.abs t * 1000000) <= M * (1002001 * M + 1000000))%Z by (clear - H AB; lia).
    apply Z.mul_le_mono_pos_l in H0; auto. clear - H0 MP. lia. }
  pose proof (PQ p q A B) as X1. pose proof (PQ r s C D) as X2.
  exists (p * q / M)%Z, (r * s / M)%Z, (p * q / M + r * s / M)%Z, (p * q / M - r * s / M)%Z.
  assert (V1 : valid c (p * q / M) = true) by (apply VC; clear - X1 HM; lia).
  assert (V2 : valid c (r * s / M) = true) by (apply VC; clear - X2 HM; lia).
  assert (V3 : valid c (p * q / M + r * s / M) = true) by (apply VC; clear - X1 X2 HM; lia).
  assert (V4 : valid c (p * q / M - r * s / M) = true) by (apply VC; clear - X1 X2 HM; lia).
  split; [apply s_mul; auto; apply VC; lia|]. split; [apply s_mul; auto; apply VC; lia|].
  split; [apply s_add; auto|]. split; [apply s_sub; auto|].
  pose proof (div_real (p * q) M ltac:(lia)) as D1. pose proof (div_real (r * s) M ltac:(lia)) as D2.
  pose proof (pow2_gt0 (cf c) F0) as MP. fold M in MP.
  unfold rval, ulp. fold M. rewrite plus_IZR, minus_IZR. rewrite mult_IZR in D1, D2. unfold Rdiv in *.
  assert (I : 0 < / IZR M) by (apply Rinv_0_lt_compat; auto).
  set (i := / IZR M) in *. set (x := IZR (p * q / M)) in *. set (y := IZR (r * s / M)) in *.
  set (P := IZR p * IZR q * i) in *. set (Q := IZR r * IZR s * i) in *.
  replace ((x + y) * i - (IZR p * i * (IZR q * i) + IZR r * i * (IZR s * i))) with ((x - P + (y - Q)) * i) by (unfold P, Q; ring).
  replace ((x - y) * i - (IZR p * i * (IZR q * i) - IZR r * i * (IZR s * i))) with ((x - P - (y - Q)) * i) by (unfold P, Q; ring).
  rewrite !Rabs_mult, (Rabs_pos_eq i) by lra. split.
  - apply Rmult_le_compat_r; [lra|]. apply Rabs_le; split; lra.
  - rewrite <- (Rmult_1_l i) at 2. apply Rmult_le_compat_r; [lra|]. apply Rabs_le; split; lra.
Qed.

Lemma x32 m : valid F32 m = true -> Rabs (rval 16 m) <= 32768.
Proof.
  intros V. apply valid32 in V. rewrite rval_abs. unfold rval. change (IZR (2 ^ 16)) with 65536.
  assert (IZR (Z.abs m) <= 2147483648) by (apply IZR_le; lia). lra.
Qed.
Lemma x64 m : valid F64 m = true -> Rabs (rval 32 m) <= 2147483648.
Proof.
  intros V. apply valid64 in V. rewrite rval_abs. unfold rval. change (IZR (2 ^ 32)) with 4294967296.
  assert (IZR (Z.abs m) <= 9223372036854775808) by (apply IZR_le; lia). lra.
Qed.
Lemma rval_plus f a b : rval f (a + b) = rval f a + rval f b.
Proof. unfold rval. rewrite plus_IZR. unfold Rdiv. ring. Qed.
Lemma tri3 a b c t d e g : Rabs (a - b) <= d -> Rabs (b - t) <= e -> Rabs (c - t) <= g -> Rabs (c - a) <= d + e + g.
Proof. intros X Y Z. apply Rabs_inv_le in X, Y, Z. apply Rabs_le. split; lra. Qed.

Theorem add32 a b : valid F32 a = true -> valid F32 b = true -> valid F32 (a + b) = true -> a <> MIN32 -> b <> MIN32 -> (a + b)%Z <> MIN32 ->
  exists t st ct sa ca sb cb p q z p' q' w, fx_add F32 a b = Ok t /\ fx_sin F32 t = Ok st /\ fx_cos F32 t = Ok ct /\
  fx_sin F32 a = Ok sa /\ fx_cos F32 a = Ok ca /\ fx_sin F32 b = Ok sb /\ fx_cos F32 b = Ok cb /\
  fx_mul F32 sa cb = Ok p /\ fx_mul F32 ca sb = Ok q /\ fx_add F32 p q = Ok z /\
  fx_mul F32 ca cb = Ok p' /\ fx_mul F32 sa sb = Ok q' /\ fx_sub F32 p' q' = Ok w /\
  Rabs (rval 16 st - rval 16 z) <= (72 + 0.35 * (Rabs (rval 16 a) + Rabs (rval 16 b))) * ulp 16 /\
  Rabs (rval 16 ct - rval 16 w) <= (73 + 0.35 * (Rabs (rval 16 a) + Rabs (rval 16 b))) * ulp 16.
Proof.
  intros Va Vb Vt Na Nb Nt.
  set (C := fun m => sin32 (cos_arg 102943 308831 m)).
  assert (IN : forall m, (Z.abs (sin32 m) * 1000 <= 1001 * 2 ^ cf F32)%Z) by (intros m; pose proof (sin32_int m); cbn [cf F32]; change (2 ^ 16)%Z with 65536%Z; lia).
  destruct (two_prods F32 (sin32 a) (C b) (C a) (sin32 b) s32 (IN _) (IN _) (IN _) (IN _)) as (p & q & z & w0 & E1 & E2 & E3 & _ & B1 & _).
  destruct (two_prods F32 (C a) (C b) (sin32 a) (sin32 b) s32 (IN _) (IN _) (IN _) (IN _)) as (p' & q' & z0 & w & F1 & F2 & _ & F3 & _ & B2).
  exists (a + b)%Z, (sin32 (a + b)), (C (a + b)%Z), (sin32 a), (C a), (sin32 b), (C b), p, q, z, p', q', w.
  split; [apply (s_add F32 s32); auto|]. split; [apply sin32_eq; auto|]. split; [apply cos32_eq; auto|].
  split; [apply sin32_eq; auto|]. split; [apply cos32_eq; auto|]. split; [apply sin32_eq; auto|]. split; [apply cos32_eq; auto|].
  repeat (split; [assumption|]).
  cbn [cf F32] in B1, B2. pose proof (x32 a Va) as XA. pose proof (x32 b Vb) as XB.
  pose proof (sin32_all a) as A1. pose proof (cos32_acc a) as A2. pose proof (sin32_all b) as A3. pose proof (cos32_acc b) as A4.
  pose proof (sin32_all (a + b)) as A5. pose proof (cos32_acc (a + b)) as A6.
  fold (C a) in A2. fold (C b) in A4. fold (C (a + b)%Z) in A6.
  assert (U : ulp 16 = / 65536) by reflexivity. rewrite U in *.
  rewrite rval_plus in A5, A6. pose proof (Rabs_triang (rval 16 a) (rval 16 b)) as TR.
  set (x := rval 16 a) in *. set (y := rval 16 b) in *. pose proof (Rabs_pos x) as X0. pose proof (Rabs_pos y) as Y0.
  destruct (sum_err x y _ _ _ _ ((18 + 0.14 * Rabs x) * / 65536) ((18 + 0.14 * Rabs y) * / 65536)
    ltac:(eapply Rle_trans; [exact A1|lra]) A2 ltac:(eapply Rle_trans; [exact A3|lra]) A4) as [S1 S2].
  set (ax := Rabs x) in *. set (ay := Rabs y) in *.
  assert (DE : 2 * ((18 + 0.14 * ax) * / 65536 * ((18 + 0.14 * ay) * / 65536)) <= 0.0703 * ((18 + 0.14 * ax) * / 65536 + (18 + 0.14 * ay) * / 65536)).
  { set (d := (18 + 0.14 * ax) * / 65536) in *. set (e := (18 + 0.14 * ay) * / 65536) in *. assert (0 <= d <= 0.0703) by (unfold d; lra).
    assert (0 <= e <= 0.0703) by (unfold e; lra). nra. }
  split.
  - eapply Rle_trans; [eapply (tri3 (rval 16 z) _ (rval 16 (sin32 (a + b))) (sin (x + y))); [exact B1|exact S1|exact A5]|]. lra.
  - eapply Rle_trans; [eapply (tri3 (rval 16 w) _ (rval 16 (C (a + b)%Z)) (cos (x + y))); [exact B2|exact S2|exact A6]|]. lra.
Qed.
Theorem add64 a b : valid F64 a = true -> valid F64 b = true -> valid F64 (a + b) = true -> a <> MIN64 -> b <> MIN64 -> (a + b)%Z <> MIN64 ->
  exists t st ct sa ca sb cb p q z p' q' w, fx_add F64 a b = Ok t /\ fx_sin F64 t = Ok st /\ fx_cos F64 t = Ok ct /\
  fx_sin F64 a = Ok sa /\ fx_cos F64 a = Ok ca /\ fx_sin F64 b = Ok sb /\ fx_cos F64 b = Ok cb /\
  fx_mul F64 sa cb = Ok p /\ fx_mul F64 ca sb = Ok q /\ fx_add F64 p q = Ok z /\
  fx_mul F64 ca cb = Ok p' /\ fx_mul F64 sa sb = Ok q' /\ fx_sub F64 p' q' = Ok w /\
  Rabs (rval 32 st - rval 32 z) <= 1.22e-3 + 0.018 * (Rabs (rval 32 a) + Rabs (rval 32 b)) * ulp 32 /\
  Rabs (rval 32 ct - rval 32 w) <= 1.23e-3 + 0.018 * (Rabs (rval 32 a) + Rabs (rval 32 b)) * ulp 32.
Proof.
  intros Va Vb Vt Na Nb Nt.
  set (C := fun m => sin64 (cos_arg 6746518852 20239556556 m)).
  assert (IN : forall m, (Z.abs (sin64 m) * 1000 <= 1001 * 2 ^ cf F64)%Z) by (intros m; pose proof (sin64_int m); cbn [cf F64]; change (2 ^ 32)%Z with 4294967296%Z; lia).
  destruct (two_prods F64 (sin64 a) (C b) (C a) (sin64 b) s64 (IN _) (IN _) (IN _) (IN _)) as (p & q & z & w0 & E1 & E2 & E3 & _ & B1 & _).
  destruct (two_prods F64 (C a) (C b) (sin64 a) (sin64 b) s64 (IN _) (IN _) (IN _) (IN _)) as (p' & q' & z0 & w & F1 & F2 & _ & F3 & _ & B2).
  exists (a + b)%Z, (sin64 (a + b)), (C (a + b)%Z), (sin64 a), (C a), (sin64 b), (C b), p, q, z, p', q', w.
  split; [apply (s_add F64 s64); auto|]. split; [apply sin64_eq; auto|]. split; [apply cos64_eq; auto|].
  split; [apply sin64_eq; auto|]. split; [apply cos64_eq; auto|]. split; [apply sin64_eq; auto|]. split; [apply cos64_eq; auto|].
  repeat (split; [assumption|]).
  cbn [cf F64] in B1, B2. pose proof (x64 a Va) as XA. pose proof (x64 b Vb) as XB.
  pose proof (sin64_all a) as A1. pose proof (cos64_acc a) as A2. pose proof (sin64_all b) as A3. pose proof (cos64_acc b) as A4.
  pose proof (sin64_all (a + b)) as A5. pose proof (cos64_acc (a + b)) as A6.
  fold (C a) in A2. fold (C b) in A4. fold (C (a + b)%Z) in A6.
  assert (U : ulp 32 = / 4294967296) by reflexivity. rewrite U in *.
  rewrite rval_plus in A5, A6. pose proof (Rabs_triang (rval 32 a) (rval 32 b)) as TR.
  set (x := rval 32 a) in *. set (y := rval 32 b) in *. pose proof (Rabs_pos x) as X0. pose proof (Rabs_pos y) as Y0.
  destruct (sum_err x y _ _ _ _ (3.2e-4 + 0.0074 * Rabs x * / 4294967296) (3.2e-4 + 0.0074 * Rabs y * / 4294967296)
    ltac:(eapply Rle_trans; [exact A1|lra]) A2 ltac:(eapply Rle_trans; [exact A3|lra]) A4) as [S1 S2].
  set (ax := Rabs x) in *. set (ay := Rabs y) in *.
  assert (DE : 2 * ((3.2e-4 + 0.0074 * ax * / 4294967296) * (3.2e-4 + 0.0074 * ay * / 4294967296)) <= 0.0041 * (3.2e-4 + 0.0074 * ax * / 4294967296 + (3.2e-4 + 0.0074 * ay * / 4294967296))).
  { set (d := 3.2e-4 + 0.0074 * ax * / 4294967296) in *. set (e := 3.2e-4 + 0.0074 * ay * / 4294967296) in *. assert (0 <= d <= 0.0041) by (unfold d; lra).
    assert (0 <= e <= 0.0041) by (unfold e; lra). nra. }
  split.
  - eapply Rle_trans; [eapply (tri3 (rval 32 z) _ (rval 32 (sin64 (a + b))) (sin (x + y))); [exact B1|exact S1|exact A5]|]. lra.
  - eapply Rle_trans; [eapply (tri3 (rval 32 w) _ (rval 32 (C (a + b)%Z)) (cos (x + y))); [exact B2|exact S2|exact A6]|]. lra.
Qed.
