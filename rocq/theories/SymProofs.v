(** Periods and symmetries of the trigonometric functions. *)
From Coq Require Import ZArith QArith Reals Lra Lia Bool.
From Interval Require Import Tactic.
From Verif Require Import Base Fixed Math Spec SpecReal BaseLemmas FixedLemmas MathProofs SqrtProofs NewtonProofs StdProofs SinProofs SinThms RealThms AtanProofs AsinProofs Asin64.
Open Scope Z_scope.

(** * sin repeats after the stored 2 pi *)
Lemma sin_z_period M P H T TH A B C D m k : T <> 0 -> 0 <= m * (m + k * T) -> TH <= Z.abs m -> TH <= Z.abs (m + k * T) ->
  sin_z M P H T TH A B C D (m + k * T) = sin_z M P H T TH A B C D m.
Proof.
  intros T0 S L L'. assert (R : Z.rem (m + k * T) T = Z.rem m T) by (apply Z.rem_add; auto; lia).
  unfold sin_z, sin_red, sin_neg_z, sin_quad. cbv zeta. rewrite R.
  replace (Z.abs (m + k * T) <? TH) with false by (symmetry; apply Z.ltb_ge; lia).
  replace (Z.abs m <? TH) with false by (symmetry; apply Z.ltb_ge; lia). reflexivity.
Qed.
Lemma sin_period32 m k : valid F32 m = true -> valid F32 (m + k * 411774) = true -> m <> MIN32 -> m + k * 411774 <> MIN32 ->
  0 <= m * (m + k * 411774) -> 9 <= Z.abs m -> 9 <= Z.abs (m + k * 411774) ->
  exists r, fx_sin F32 m = Ok r /\ fx_sin F32 (m + k * 411774) = Ok r.
Proof.
  intros V V' N N' S L L'. exists (sin32 m). split; [apply sin32_eq; auto|]. rewrite sin32_eq by auto. f_equal. apply sin_z_period; auto; lia.
Qed.
Lemma sin_period64 m k : valid F64 m = true -> valid F64 (m + k * 26986075409) = true -> m <> MIN64 -> m + k * 26986075409 <> MIN64 ->
  0 <= m * (m + k * 26986075409) -> 644245 <= Z.abs m -> 644245 <= Z.abs (m + k * 26986075409) ->
  exists r, fx_sin F64 m = Ok r /\ fx_sin F64 (m + k * 26986075409) = Ok r.
Proof.
  intros V V' N N' S L L'. exists (sin64 m). split; [apply sin64_eq; auto|]. rewrite sin64_eq by auto. f_equal. apply sin_z_period; auto; lia.
Qed.
Lemma cos_period32 m k : valid F32 m = true -> valid F32 (m + k * 411774) = true ->
  (308840 <= m /\ 308840 <= m + k * 411774) \/ (m <= -102952 /\ m + k * 411774 <= -102952) ->
  exists r, fx_cos F32 m = Ok r /\ fx_cos F32 (m + k * 411774) = Ok r.
Proof.
  intros V V' L. rewrite !cos32_eq by auto. eexists. split; [reflexivity|]. f_equal. unfold cos_arg. destruct L as [L|L].
  - replace (0 <? m) with true by (symmetry; apply Z.ltb_lt; lia). replace (0 <? m + k * 411774) with true by (symmetry; apply Z.ltb_lt; lia).
    replace (m + k * 411774 - 308831) with (m - 308831 + k * 411774) by ring. apply sin_z_period; try lia. apply Z.mul_nonneg_nonneg; lia.
  - replace (0 <? m) with false by (symmetry; apply Z.ltb_ge; lia). replace (0 <? m + k * 411774) with false by (symmetry; apply Z.ltb_ge; lia).
    replace (m + k * 411774 + 102943) with (m + 102943 + k * 411774) by ring. apply sin_z_period; try lia. apply Z.mul_nonpos_nonpos; lia.
Qed.
Lemma cos_period64 m k : valid F64 m = true -> valid F64 (m + k * 26986075409) = true ->
  (20240200801 <= m /\ 20240200801 <= m + k * 26986075409) \/ (m <= -6747163097 /\ m + k * 26986075409 <= -6747163097) ->
  exists r, fx_cos F64 m = Ok r /\ fx_cos F64 (m + k * 26986075409) = Ok r.
Proof.
  intros V V' L. rewrite !cos64_eq by auto. eexists. split; [reflexivity|]. f_equal. unfold cos_arg. destruct L as [L|L].
  - replace (0 <? m) with true by (symmetry; apply Z.ltb_lt; lia). replace (0 <? m + k * 26986075409) with true by (symmetry; apply Z.ltb_lt; lia).
    replace (m + k * 26986075409 - 20239556556) with (m - 20239556556 + k * 26986075409) by ring. apply sin_z_period; try lia. apply Z.mul_nonneg_nonneg; lia.
  - replace (0 <? m) with false by (symmetry; apply Z.ltb_ge; lia). replace (0 <? m + k * 26986075409) with false by (symmetry; apply Z.ltb_ge; lia).
    replace (m + k * 26986075409 + 6746518852) with (m + 6746518852 + k * 26986075409) by ring. apply sin_z_period; try lia. apply Z.mul_nonpos_nonpos; lia.
Qed.

(** * asin is odd, acos its complement *)
Lemma atan_odd_nonneg c q r : std c -> valid c q = true -> 0 <= q -> valid c r = true -> valid c (- r) = true ->
  fx_atan c q = Ok r -> fx_atan c (- q) = Ok (- r).
Proof.
  intros HS V Q VR VR' E. destruct (Z.eq_dec q 0) as [->|N].
  - destruct HS as [-> | ->]; vm_compute in E; injection E as <-; reflexivity.
  - rewrite atan_pos_neg by (auto; lia). rewrite E. cbn [bind]. apply s_neg; auto.
Qed.
Lemma asin32_odd_nonneg m : 0 <= m < 65536 -> exists r, fx_asin F32 m = Ok r /\ -2147380000 <= r <= 2147380000 /\ fx_asin F32 (- m) = Ok (- r).
Proof.
  intros L. destruct (asin32_total m ltac:(lia)) as (r & E & B). exists r. split; [exact E|]. split; [exact B|].
  rewrite asin32_fast_eq in E |- * by lia. unfold asin32_fast in *. fold (asin_q m) in E. fold (asin_q (- m)). rewrite asin_q_opp.
  pose proof (asin_q_bnd m L). apply atan_odd_nonneg; auto; try (left; reflexivity); try (apply valid32); lia.
Qed.
Lemma asin64_eq m : Z.abs m <= 4290672328 -> exists s, 0 < s /\
  (forall m', Z.abs m' = Z.abs m -> fx_asin F64 m' = fx_atan F64 (Z.quot (m' * M64) s)) /\ Z.abs (Z.quot (m * M64) s) <= 23 * M64.
Proof.
  intros Lm.
  assert (P : 0 <= m * m / M64 <= 4286381656).
  { split; [apply Z.div_pos; nia|]. apply Z.lt_succ_r. apply Z.div_lt_upper_bound; nia. }
  set (d := M64 - m * m / M64) in *.
  assert (Hd : 0 < d < sqrt64_limit) by (unfold d, sqrt64_limit; lia).
  destruct (sqrt64_main d Hd) as (s & E & R & F & _ & _ & _). apply far_sq in F. unfold eps64 in F. change (2 ^ 32) with M64 in *.
  assert (S1 : 188000000 < s <= 2 * M64) by (unfold d in *; nia).
  assert (QB : forall m', Z.abs m' = Z.abs m -> Z.abs (Z.quot (m' * M64) s) <= 23 * M64).
  { intros m' A. rewrite <- Z.quot_abs by lia. rewrite (Z.abs_eq s) by lia. apply Z.quot_le_upper_bound; nia. }
  exists s. split; [lia|]. split; [|apply QB; reflexivity]. intros m' A. pose proof (QB m' A) as Q.
  assert (SQ : m' * m' = m * m) by (rewrite <- (Z.abs_square m'), <- (Z.abs_square m), A; reflexivity).
  rewrite (asin_in F64 s64) by (try (apply v64); change (2 ^ cf F64) with M64; lia). change (2 ^ cf F64) with M64.
  rewrite (s_mul F64 s64) by (apply v64; change (2 ^ cf F64) with M64; try rewrite SQ; lia). change (2 ^ cf F64) with M64. cbn [bind]. rewrite SQ.
  rewrite (s_sub F64 s64) by (apply v64; lia). cbn [bind]. fold d. rewrite E. cbn [bind].
  rewrite (s_div F64 s64) by (try (apply v64); change (2 ^ cf F64) with M64; lia). change (2 ^ cf F64) with M64. reflexivity.
Qed.
Lemma asin64_odd_nonneg m : 0 <= m <= 4290672328 -> exists r, fx_asin F64 m = Ok r /\ Z.abs r <= 1800000000 * M64 /\ fx_asin F64 (- m) = Ok (- r).
Proof.
  intros L. destruct (asin64_eq m ltac:(lia)) as (s & S & EQ & QB). destruct (atan64_def _ QB) as (r & E & B).
  exists r. rewrite (EQ m eq_refl), (EQ (- m) (Z.abs_opp m)). split; [exact E|]. split; [exact B|].
  rewrite Z.mul_opp_l, Z.quot_opp_l by lia.
  apply atan_odd_nonneg; auto; try (right; reflexivity); try (apply v64; lia). apply Z.quot_pos; lia.
Qed.
Lemma asin_odd32 m : Z.abs m <= 65536 -> exists r, fx_asin F32 m = Ok r /\ fx_asin F32 (- m) = Ok (- r).
Proof.
  intros L. destruct (Z.eq_dec (Z.abs m) 65536) as [E|N].
  - assert (D : m = 65536 \/ m = -65536) by lia. destruct D as [-> | ->]; [exists 102943|exists (-102943)]; split; reflexivity.
  - destruct (Z.le_gt_cases 0 m) as [P|P].
    + destruct (asin32_odd_nonneg m ltac:(lia)) as (r & E & _ & E'). eauto.
    + destruct (asin32_odd_nonneg (- m) ltac:(lia)) as (r & E & _ & E'). rewrite Z.opp_involutive in E'. exists (- r). rewrite Z.opp_involutive. auto.
Qed.
Lemma asin_odd64 m : Z.abs m <= 4290672328 -> exists r, fx_asin F64 m = Ok r /\ fx_asin F64 (- m) = Ok (- r).
Proof.
  intros L. destruct (Z.le_gt_cases 0 m) as [P|P].
  - destruct (asin64_odd_nonneg m ltac:(lia)) as (r & E & _ & E'). eauto.
  - destruct (asin64_odd_nonneg (- m) ltac:(lia)) as (r & E & _ & E'). rewrite Z.opp_involutive in E'. exists (- r). rewrite Z.opp_involutive. auto.
Qed.
Lemma asin_acos32 m : Z.abs m < 65536 -> exists a b, fx_asin F32 m = Ok a /\ fx_acos F32 m = Ok b /\ a + b = 102943.
Proof.
  intros L. destruct (Z.eq_dec m 0) as [->|NZ]; [exists 0, 102943; repeat split; reflexivity|].
  destruct (asin32_total m L) as (a & A & B). exists a, (102943 - a). split; [exact A|]. split; [|ring].
  rewrite (acos_in F32 f32 m a) by (auto; try (apply valid32; lia); change (2 ^ cf F32) with 65536; lia).
  change (pi_v F32) with (@Ok Z 205887). cbn [bind]. change (fx_div_int F32 int32 205887 2) with (@Ok Z 102943). cbn [bind].
  apply (s_sub F32 f32); apply valid32; lia.
Qed.
Lemma asin_acos64 m : Z.abs m <= 4290672328 -> exists a b, fx_asin F64 m = Ok a /\ fx_acos F64 m = Ok b /\ a + b = 6746518852.
Proof.
  intros L. destruct (Z.eq_dec m 0) as [->|NZ]; [exists 0, 6746518852; repeat split; vm_compute; reflexivity|].
  destruct (asin64_eq m ltac:(lia)) as (s & S & EQ & QB). destruct (atan64_def _ QB) as (a & A & B). rewrite <- (EQ m eq_refl) in A.
  exists a, (6746518852 - a). split; [exact A|]. split; [|ring].
  rewrite (acos_in F64 s64 m a) by (auto; try (apply v64); try (change (2 ^ cf F64) with M64); lia).
  change (pi_v F64) with (@Ok Z 13493037704). cbn [bind]. change (fx_div_int F64 int32 13493037704 2) with (@Ok Z 6746518852). cbn [bind].
  apply (s_sub F64 s64); apply v64; lia.
Qed.
Open Scope R_scope.
Lemma r32_le m : Rabs (rval 16 m) <= 1 -> (Z.abs m <= 65536)%Z.
Proof.
  intros R. apply le_IZR. rewrite abs_IZR. unfold rval in R. change (IZR (2 ^ 16)) with 65536 in R.
  unfold Rdiv in R. rewrite Rabs_mult, (Rabs_pos_eq (/ 65536)) in R by lra. lra.
Qed.
Lemma r32_lt m : Rabs (rval 16 m) < 1 -> (Z.abs m < 65536)%Z.
Proof.
  intros R. apply lt_IZR. rewrite abs_IZR. unfold rval in R. change (IZR (2 ^ 16)) with 65536 in R.
  unfold Rdiv in R. rewrite Rabs_mult, (Rabs_pos_eq (/ 65536)) in R by lra. lra.
Qed.
Lemma r64_le m : Rabs (rval 32 m) <= 0.999 -> (Z.abs m <= 4290672328)%Z.
Proof.
  intros R. apply Z.lt_succ_r. apply lt_IZR. rewrite abs_IZR. change (Z.succ 4290672328) with 4290672329%Z.
  unfold rval in R. change (IZR (2 ^ 32)) with 4294967296 in R. unfold Rdiv in R. rewrite Rabs_mult, (Rabs_pos_eq (/ 4294967296)) in R by lra. lra.
Qed.
(** the statements *)
Lemma asin_odd32_thm m : Rabs (rval 16 m) <= 1 -> exists r, fx_asin F32 m = Ok r /\ fx_asin F32 (- m) = Ok (- r)%Z.
Proof. intros. apply asin_odd32, r32_le; auto. Qed.
Lemma asin_odd64_thm m : Rabs (rval 32 m) <= 0.999 -> exists r, fx_asin F64 m = Ok r /\ fx_asin F64 (- m) = Ok (- r)%Z.
Proof. intros. apply asin_odd64, r64_le; auto. Qed.
Lemma asin_acos32_thm m : Rabs (rval 16 m) < 1 -> exists a b b' h,
  fx_asin F32 m = Ok a /\ fx_acos F32 m = Ok b /\ fx_acos F32 (- m) = Ok b' /\ fx_pi_2 F32 = Ok h /\ (a + b = h /\ b + b' = 2 * h)%Z.
Proof.
  intros R. apply r32_lt in R. destruct (asin_acos32 m R) as (a & b & A & B & S).
  destruct (asin_acos32 (- m) ltac:(lia)) as (a' & b' & A' & B' & S'). destruct (asin_odd32 m ltac:(lia)) as (r & E & E').
  rewrite A in E. injection E as <-. rewrite A' in E'. injection E' as ->.
  exists a, b, b', 102943%Z. repeat (split; [assumption || reflexivity|]). lia.
Qed.
Lemma asin_acos64_thm m : Rabs (rval 32 m) <= 0.999 -> exists a b b' h,
  fx_asin F64 m = Ok a /\ fx_acos F64 m = Ok b /\ fx_acos F64 (- m) = Ok b' /\ fx_pi_2 F64 = Ok h /\ (a + b = h /\ b + b' = 2 * h)%Z.
Proof.
  intros R. apply r64_le in R. destruct (asin_acos64 m R) as (a & b & A & B & S).
  destruct (asin_acos64 (- m) ltac:(lia)) as (a' & b' & A' & B' & S'). destruct (asin_odd64 m ltac:(lia)) as (r & E & E').
  rewrite A in E. injection E as <-. rewrite A' in E'. injection E' as ->.
  exists a, b, b', 6746518852%Z. repeat (split; [assumption || reflexivity|]). lia.
Qed.

(** * cos is even up to a bound that does not depend on the argument *)
Lemma reduce M P H T TH A B C D m : (0 < T)%Z -> (TH <= T)%Z ->
  exists m' k, (m = m' + k * T)%Z /\ (Z.abs m' < 2 * T)%Z /\ sin_z M P H T TH A B C D m = sin_z M P H T TH A B C D m'.
Proof.
  intros T0 L. destruct (Z.lt_ge_cases (Z.abs m) (2 * T)) as [S|S]; [exists m, 0%Z; repeat split; auto; lia|].
  pose proof (Z.rem_bound_abs m T ltac:(lia)) as R. pose proof (Z.quot_rem m T ltac:(lia)) as QR.
  rewrite (Z.abs_eq T) in R by lia. pose proof (Z.rem_sign_nz m T ltac:(lia)) as SG.
  set (r := Z.rem m T) in *. set (q := Z.quot m T) in *.
  destruct (Z.le_gt_cases 0 m) as [G|G].
  - assert (0 <= r)%Z by (apply Z.rem_nonneg; lia). exists (r + T)%Z, (q - 1)%Z.
    assert (E : m = (r + T + (q - 1) * T)%Z) by (rewrite QR; ring). split; [exact E|]. split; [lia|].
    rewrite E at 1. apply sin_z_period; try lia. apply Z.mul_nonneg_nonneg; lia.
  - assert (r <= 0)%Z by (apply Z.rem_nonpos; lia). exists (r - T)%Z, (q + 1)%Z.
    assert (E : m = (r - T + (q + 1) * T)%Z) by (rewrite QR; ring). split; [exact E|]. split; [lia|].
    rewrite E at 1. apply sin_z_period; try lia. apply Z.mul_nonpos_nonpos; lia.
Qed.
Lemma rv16 a : rval 16 a = IZR a / 65536. Proof. reflexivity. Qed.
Lemma rv32 a : rval 32 a = IZR a / 4294967296. Proof. reflexivity. Qed.
Lemma half_turn x y (j : Z) d1 d2 (h t : R) : x + y = - h + IZR j * t -> Rabs (h - PI) <= d1 -> Rabs (t - 2 * PI) <= d2 -> (Z.abs j <= 4)%Z ->
  Rabs (sin x - sin y) <= d1 + 4 * d2.
Proof.
  intros E A B J. assert (S : sin x = sin (- PI - x + 2 * IZR j * PI)).
  { rewrite sin_2kpi. replace (- PI - x) with (- (x + PI)) by ring. rewrite sin_neg, neg_sin. ring. }
  rewrite S. eapply Rle_trans; [apply sin_lip|]. replace y with (- h + IZR j * t - x) by lra.
  replace (- PI - x + 2 * IZR j * PI - (- h + IZR j * t - x)) with ((h - PI) + - (IZR j * (t - 2 * PI))) by ring.
  eapply Rle_trans; [apply Rabs_triang|]. rewrite Rabs_Ropp, Rabs_mult.
  assert (JR : Rabs (IZR j) <= 4) by (rewrite <- abs_IZR; apply IZR_le; auto).
  apply Rplus_le_compat; auto. apply Rmult_le_compat; auto using Rabs_pos.
Qed.
Lemma Rabs_in x y : Rabs x <= y -> - y <= x <= y.
Proof. intros A. unfold Rabs in A. destruct (Rcase_abs x); lra. Qed.
Lemma cos_even32_pos m a b : valid F32 m = true -> (0 < m)%Z -> fx_cos F32 m = Ok a -> fx_cos F32 (- m) = Ok b ->
  (Z.abs (a - b) <= 42)%Z.
Proof.
  intros V L EA EB. assert (V' : valid F32 (- m) = true) by (apply valid32 in V; apply valid32; lia).
  rewrite cos32_eq in EA by auto. rewrite cos32_eq in EB by auto. injection EA as <-. injection EB as <-. unfold cos_arg.
  replace (0 <? m)%Z with true by (symmetry; apply Z.ltb_lt; lia). replace (0 <? - m)%Z with false by (symmetry; apply Z.ltb_ge; lia).
  destruct (reduce (2 ^ 16) 205887 102943 411774 9 26950 8085 3850 2245 (m - 308831)) as (x & k1 & E1 & B1 & F1); [lia..|].
  destruct (reduce (2 ^ 16) 205887 102943 411774 9 26950 8085 3850 2245 (- m + 102943)) as (y & k2 & E2 & B2 & F2); [lia..|].
  fold sin32 in F1, F2. rewrite F1, F2. clear F1 F2.
  pose proof (sin32_all x) as SX. pose proof (sin32_all y) as SY.
  assert (AX : Rabs (rval 16 x) <= 12.57).
  { rewrite rval_abs, rv16. assert (IZR (Z.abs x) <= 823547) by (apply IZR_le; lia). lra. }
  assert (AY : Rabs (rval 16 y) <= 12.57).
  { rewrite rval_abs, rv16. assert (IZR (Z.abs y) <= 823547) by (apply IZR_le; lia). lra. }
  assert (HT : Rabs (sin (rval 16 x) - sin (rval 16 y)) <= 1.32 * / 65536 + 4 * (0.84 * / 65536)).
  { apply (half_turn _ _ (- (k1 + k2)) _ _ (205888 / 65536) (411774 / 65536)).
    - rewrite !rv16. assert (E : (x + y = - 205888 + - (k1 + k2) * 411774)%Z) by lia.
      apply (f_equal IZR) in E. rewrite !plus_IZR, mult_IZR in E. lra.
    - interval with (i_prec 60).
    - interval with (i_prec 60).
    - lia. }
  change (ulp 16) with (/ 65536) in *. apply Rabs_in in SX, SY, HT.
  assert (H : -43 < IZR (sin32 x - sin32 y) < 43); [|destruct H as (H1 & H2); apply lt_IZR in H1; apply lt_IZR in H2; lia].
  rewrite minus_IZR. rewrite !rv16 in *.
  set (sx := sin (IZR x / 65536)) in *. set (sy := sin (IZR y / 65536)) in *. set (p := Rabs (IZR x / 65536)) in *. set (q := Rabs (IZR y / 65536)) in *.
  split; lra.
Qed.
Lemma cos_even64_pos m a b : valid F64 m = true -> (0 < m)%Z -> fx_cos F64 m = Ok a -> fx_cos F64 (- m) = Ok b ->
  Rabs (rval 32 a - rval 32 b) <= 6.3e-4.
Proof.
  intros V L EA EB. assert (V' : valid F64 (- m) = true) by (apply valid64 in V; apply valid64; lia).
  rewrite cos64_eq in EA by auto. rewrite cos64_eq in EB by auto. injection EA as <-. injection EB as <-. unfold cos_arg.
  replace (0 <? m)%Z with true by (symmetry; apply Z.ltb_lt; lia). replace (0 <? - m)%Z with false by (symmetry; apply Z.ltb_ge; lia).
  destruct (reduce (2 ^ 32) 13493037704 6746518852 26986075409 644245 1766234505 529870351 252319215 147186208 (m - 20239556556)) as (x & k1 & E1 & B1 & F1); [lia..|].
  destruct (reduce (2 ^ 32) 13493037704 6746518852 26986075409 644245 1766234505 529870351 252319215 147186208 (- m + 6746518852)) as (y & k2 & E2 & B2 & F2); [lia..|].
  fold sin64 in F1, F2. rewrite F1, F2. clear F1 F2.
  pose proof (sin64_all x) as SX. pose proof (sin64_all y) as SY.
  assert (AX : Rabs (rval 32 x) <= 12.57).
  { rewrite rval_abs, rv32. assert (IZR (Z.abs x) <= 53972150817) by (apply IZR_le; lia). lra. }
  assert (AY : Rabs (rval 32 y) <= 12.57).
  { rewrite rval_abs, rv32. assert (IZR (Z.abs y) <= 53972150817) by (apply IZR_le; lia). lra. }
  assert (HT : Rabs (sin (rval 32 x) - sin (rval 32 y)) <= 1.5 * / 4294967296 + 4 * (1.5 * / 4294967296)).
  { apply (half_turn _ _ (- (k1 + k2)) _ _ (13493037704 / 4294967296) (26986075409 / 4294967296)).
    - rewrite !rv32. assert (E : (x + y = - 13493037704 + - (k1 + k2) * 26986075409)%Z) by lia.
      apply (f_equal IZR) in E. rewrite !plus_IZR, mult_IZR in E. lra.
    - interval with (i_prec 100).
    - interval with (i_prec 100).
    - lia. }
  change (ulp 32) with (/ 4294967296) in *. apply Rabs_in in SX, SY, HT. apply Rabs_le. lra.
Qed.
Lemma cos_even32_thm m : valid F32 m = true -> m <> MIN32 -> exists a b, fx_cos F32 m = Ok a /\ fx_cos F32 (- m) = Ok b /\
  Rabs (rval 16 a - rval 16 b) <= 42 * ulp 16.
Proof.
  intros V N. assert (V' : valid F32 (- m) = true) by (apply valid32 in V; apply valid32; unfold MIN32 in N; lia).
  destruct (cos32_thm m V) as (a & EA & _ & _). destruct (cos32_thm (- m) V') as (b & EB & _ & _).
  exists a, b. split; [exact EA|]. split; [exact EB|].
  assert (B : (Z.abs (a - b) <= 42)%Z).
  { destruct (Z.lt_trichotomy m 0) as [L|[->|L]].
    - rewrite <- Z.abs_opp. replace (- (a - b))%Z with (b - a)%Z by ring. apply (cos_even32_pos (- m)); auto; try lia. rewrite Z.opp_involutive. auto.
    - change (- 0)%Z with 0%Z in EB. rewrite EA in EB. injection EB as <-. lia.
    - apply (cos_even32_pos m); auto. }
  replace (rval 16 a - rval 16 b) with (rval 16 (a - b)) by (rewrite !rv16, minus_IZR; lra).
  rewrite rval_abs, rv16. change (ulp 16) with (/ 65536). apply IZR_le in B. lra.
Qed.
Lemma cos_even64_thm m : valid F64 m = true -> m <> MIN64 -> exists a b, fx_cos F64 m = Ok a /\ fx_cos F64 (- m) = Ok b /\
  Rabs (rval 32 a - rval 32 b) <= 6.3e-4.
Proof.
  intros V N. assert (V' : valid F64 (- m) = true) by (apply valid64 in V; apply valid64; unfold MIN64 in N; lia).
  destruct (cos64_thm m V) as (a & EA & _ & _). destruct (cos64_thm (- m) V') as (b & EB & _ & _).
  exists a, b. split; [exact EA|]. split; [exact EB|].
  destruct (Z.lt_trichotomy m 0) as [L|[->|L]].
  - rewrite Rabs_minus_sym. apply (cos_even64_pos (- m)); auto; try lia. rewrite Z.opp_involutive. auto.
  - change (- 0)%Z with 0%Z in EB. rewrite EA in EB. injection EB as <-. rewrite Rminus_diag_eq by reflexivity. rewrite Rabs_R0. lra.
  - apply (cos_even64_pos m); auto.
Qed.

(** * tan *)
Lemma tan_cong c m m' : fx_cos c m = fx_cos c m' -> fx_sin c m = fx_sin c m' -> fx_tan c m = fx_tan c m'.
Proof. intros A B. unfold fx_tan. rewrite A, B. reflexivity. Qed.
Lemma tan_period32 m k : valid F32 m = true -> valid F32 (m + k * 411774) = true -> m <> MIN32 -> (m + k * 411774 <> MIN32)%Z ->
  (308840 <= m /\ 308840 <= m + k * 411774)%Z \/ (m <= -102952 /\ m + k * 411774 <= -102952)%Z -> fx_tan F32 (m + k * 411774) = fx_tan F32 m.
Proof.
  intros V V' N N' L. destruct (cos_period32 m k V V' L) as (r & E & E').
  destruct (sin_period32 m k V V' N N') as (s & F & F'); [|lia..|].
  - destruct L; [apply Z.mul_nonneg_nonneg|apply Z.mul_nonpos_nonpos]; lia.
  - apply tan_cong; congruence.
Qed.
Lemma tan_period64 m k : valid F64 m = true -> valid F64 (m + k * 26986075409) = true -> m <> MIN64 -> (m + k * 26986075409 <> MIN64)%Z ->
  (20240200801 <= m /\ 20240200801 <= m + k * 26986075409)%Z \/ (m <= -6747163097 /\ m + k * 26986075409 <= -6747163097)%Z ->
  fx_tan F64 (m + k * 26986075409) = fx_tan F64 m.
Proof.
  intros V V' N N' L. destruct (cos_period64 m k V V' L) as (r & E & E').
  destruct (sin_period64 m k V V' N N') as (s & F & F'); [|lia..|].
  - destruct L; [apply Z.mul_nonneg_nonneg|apply Z.mul_nonpos_nonpos]; lia.
  - apply tan_cong; congruence.
Qed.
(** where cos is exactly even, tan is exactly odd *)
Lemma tan_odd32 m cs : valid F32 m = true -> m <> MIN32 -> (9 <= Z.abs m)%Z -> fx_cos F32 m = Ok cs -> fx_cos F32 (- m) = Ok cs -> (2 < Z.abs cs)%Z ->
  exists r, fx_tan F32 m = Ok r /\ fx_tan F32 (- m) = Ok (- r)%Z.
Proof.
  intros V N L E E' C. destruct (sin32_odd m V N L) as (s & S & S').
  assert (V' : valid F32 (- m) = true) by (apply valid32 in V; apply valid32; unfold MIN32 in N; lia).
  assert (BS : (Z.abs s <= 65544)%Z) by (rewrite sin32_eq in S by auto; injection S as <-; apply sin32_int).
  assert (BC : (Z.abs cs <= 65544)%Z) by (rewrite cos32_eq in E by auto; injection E as <-; apply sin32_int).
  assert (M2 : (2 ^ cf F32 = 65536)%Z) by reflexivity.
  assert (T1 := proj2 (tan_eq F32 m s cs s32 V S E ltac:(apply valid32; lia) ltac:(lia)) ltac:(lia)).
  assert (T2 := proj2 (tan_eq F32 (- m) (- s) cs s32 V' S' E' ltac:(apply valid32; lia) ltac:(lia)) ltac:(lia)).
  rewrite M2 in T1, T2. rewrite Z.mul_opp_l, Z.quot_opp_l in T2 by lia.
  assert (QB : (Z.abs (Z.quot (s * 65536) cs) <= 1431830528)%Z).
  { rewrite <- Z.quot_abs by lia. apply Z.quot_le_upper_bound; lia. }
  rewrite wrap_id in T1 by (try reflexivity; apply valid32; lia). rewrite wrap_id in T2 by (try reflexivity; apply valid32; lia). eauto.
Qed.
Lemma tan_odd64 m cs : valid F64 m = true -> m <> MIN64 -> (644245 <= Z.abs m)%Z -> fx_cos F64 m = Ok cs -> fx_cos F64 (- m) = Ok cs -> (2 < Z.abs cs)%Z ->
  exists r, fx_tan F64 m = Ok r /\ fx_tan F64 (- m) = Ok (- r)%Z.
Proof.
  intros V N L E E' C. destruct (sin64_odd m V N L) as (s & S & S').
  assert (V' : valid F64 (- m) = true) by (apply valid64 in V; apply valid64; unfold MIN64 in N; lia).
  assert (BS : (Z.abs s <= 4294983231)%Z) by (rewrite sin64_eq in S by auto; injection S as <-; apply sin64_int).
  assert (BC : (Z.abs cs <= 4294983231)%Z) by (rewrite cos64_eq in E by auto; injection E as <-; apply sin64_int).
  assert (M2 : (2 ^ cf F64 = 4294967296)%Z) by reflexivity.
  assert (T1 := proj2 (tan_eq F64 m s cs s64 V S E ltac:(apply valid64; lia) ltac:(lia)) ltac:(lia)).
  assert (T2 := proj2 (tan_eq F64 (- m) (- s) cs s64 V' S' E' ltac:(apply valid64; lia) ltac:(lia)) ltac:(lia)).
  rewrite M2 in T1, T2. rewrite Z.mul_opp_l, Z.quot_opp_l in T2 by lia.
  assert (QB : (Z.abs (Z.quot (s * 4294967296) cs) <= 6148940000000000000)%Z).
  { rewrite <- Z.quot_abs by lia. apply Z.quot_le_upper_bound; lia. }
  rewrite wrap_id in T1 by (try reflexivity; apply valid64; lia). rewrite wrap_id in T2 by (try reflexivity; apply valid64; lia). eauto.
Qed.

(** * asin of fixed64 on its whole domain, defined or not *)
Lemma asin64_eq_all m : (Z.abs m < M64)%Z -> exists s, (65536 <= s)%Z /\ (forall m', Z.abs m' = Z.abs m -> fx_asin F64 m' = fx_atan F64 (Z.quot (m' * M64) s)).
Proof.
  intros Lm.
  assert (P : (0 <= m * m / M64 <= 4294967295)%Z).
  { split; [apply Z.div_pos; nia|]. apply Z.lt_succ_r. apply Z.div_lt_upper_bound; nia. }
  set (d := (M64 - m * m / M64)%Z) in *.
  assert (Hd : (0 < d < sqrt64_limit)%Z) by (unfold d, sqrt64_limit; lia).
  destruct (sqrt64_main d Hd) as (s & E & R & _). exists s. split; [lia|]. intros m' A.
  assert (SQ : (m' * m' = m * m)%Z) by (rewrite <- (Z.abs_square m'), <- (Z.abs_square m), A; reflexivity).
  assert (Q : (Z.abs (Z.quot (m' * M64) s) <= 65536 * M64)%Z).
  { rewrite <- Z.quot_abs by lia. rewrite (Z.abs_eq s) by lia. apply Z.quot_le_upper_bound; nia. }
  rewrite (asin_in F64 s64) by (try (apply v64); change (2 ^ cf F64)%Z with M64; lia). change (2 ^ cf F64)%Z with M64.
  rewrite (s_mul F64 s64) by (apply v64; change (2 ^ cf F64)%Z with M64; try rewrite SQ; lia). change (2 ^ cf F64)%Z with M64. cbn [bind]. rewrite SQ.
  rewrite (s_sub F64 s64) by (apply v64; lia). cbn [bind]. fold d. rewrite E. cbn [bind].
  change (2 ^ 49)%Z with 562949953421312%Z in R.
  rewrite (s_div F64 s64) by (try (apply v64); change (2 ^ cf F64)%Z with M64; lia). change (2 ^ cf F64)%Z with M64. reflexivity.
Qed.
Lemma asin_odd64_all m : (0 <= m <= M64)%Z -> fx_asin F64 (- m) = (let* r := fx_asin F64 m in fx_neg F64 r).
Proof.
  intros L. destruct (Z.eq_dec m M64) as [->|N]; [vm_compute; reflexivity|].
  destruct (asin64_eq_all m ltac:(lia)) as (s & S & EQ). rewrite (EQ m eq_refl), (EQ (- m)%Z (Z.abs_opp m)).
  rewrite Z.mul_opp_l, Z.quot_opp_l by lia. pose proof (Z.quot_pos (m * M64) s ltac:(lia) ltac:(lia)) as Q.
  assert (Q2 : (Z.quot (m * M64) s <= 65536 * M64)%Z) by (apply Z.quot_le_upper_bound; nia).
  destruct (Z.eq_dec (Z.quot (m * M64) s) 0) as [-> | NZ]; [vm_compute; reflexivity|].
  apply atan_pos_neg; [exact s64|apply v64; lia|lia].
Qed.
Lemma acos64_all m a : (Z.abs m < M64)%Z -> fx_asin F64 m = Ok a -> (Z.abs a <= 2 ^ 62)%Z -> fx_acos F64 m = Ok (6746518852 - a)%Z.
Proof.
  change (2 ^ 62)%Z with 4611686018427387904%Z.
  intros L A F. destruct (Z.eq_dec m 0) as [->|N]; [vm_compute in A; injection A as <-; vm_compute; reflexivity|].
  rewrite (acos_in F64 s64 m a) by (auto; try (apply v64); try (change (2 ^ cf F64)%Z with M64); lia).
  change (pi_v F64) with (@Ok Z 13493037704%Z). cbn [bind]. change (fx_div_int F64 int32 13493037704 2) with (@Ok Z 6746518852%Z). cbn [bind].
  apply (s_sub F64 s64); apply valid64; lia.
Qed.
Lemma r64_bnd m b : Rabs (rval 32 m) <= IZR b -> (Z.abs m <= b * M64)%Z.
Proof.
  intros R. apply le_IZR. rewrite abs_IZR, mult_IZR. rewrite rv32 in R. unfold Rdiv in R. rewrite Rabs_mult, (Rabs_pos_eq (/ 4294967296)) in R by lra. lra.
Qed.
Lemma asin_odd64_all_thm m : 0 <= rval 32 m <= 1 -> fx_asin F64 (- m) = (let* r := fx_asin F64 m in fx_neg F64 r).
Proof.
  intros (A & B). apply asin_odd64_all. rewrite rv32 in *. split; [apply le_IZR; lra|].
  apply le_IZR. lra.
Qed.
Lemma acos64_all_thm m a : Rabs (rval 32 m) < 1 -> fx_asin F64 m = Ok a -> Rabs (rval 32 a) <= 1073741824 -> fx_acos F64 m = Ok (6746518852 - a)%Z.
Proof.
  intros A E B. apply acos64_all; auto.
  - rewrite rv32 in A. unfold Rdiv in A. rewrite Rabs_mult, (Rabs_pos_eq (/ 4294967296)) in A by lra. apply lt_IZR. rewrite abs_IZR. lra.
  - apply r64_bnd in B. change (2 ^ 62)%Z with (1073741824 * M64)%Z. exact B.
Qed.
(** ** Witnesses *)
Lemma sin_period_refuted : exists m a b, valid F32 m = true /\ valid F32 (m + 411774) = true /\ (0 < m)%Z /\
  fx_sin F32 m = Ok a /\ fx_sin F32 (m + 411774) = Ok b /\ a <> b.
Proof. exists 4%Z. do 2 eexists. split; [reflexivity|]. split; [reflexivity|]. split; [reflexivity|]. split; [vm_compute; reflexivity|]. split; [vm_compute; reflexivity|]. discriminate. Qed.
Lemma sin_period_zero_refuted : exists m a b, valid F32 m = true /\ valid F32 (m + 411774) = true /\ (9 <= Z.abs m)%Z /\
  fx_sin F32 m = Ok a /\ fx_sin F32 (m + 411774) = Ok b /\ a <> b.
Proof.
  exists (-321975)%Z. do 2 eexists. split; [reflexivity|]. split; [reflexivity|]. split; [lia|]. split; [vm_compute; reflexivity|]. split; [vm_compute; reflexivity|]. discriminate. Qed.
Lemma cos_even_refuted : exists m a b, valid F32 m = true /\ fx_cos F32 m = Ok a /\ fx_cos F32 (- m) = Ok b /\ a <> b.
Proof. exists 53872409%Z, 31585%Z, 31588%Z. split; [reflexivity|]. split; [vm_compute; reflexivity|]. split; [vm_compute; reflexivity|]. discriminate. Qed.
Lemma tan_odd_refuted : exists m a b, valid F32 m = true /\ (9 <= Z.abs m)%Z /\ fx_tan F32 m = Ok a /\ fx_tan F32 (- m) = Ok b /\ b <> (- a)%Z.
Proof.
  exists 53872409%Z. do 2 eexists. split; [reflexivity|]. split; [lia|]. split; [vm_compute; reflexivity|]. split; [vm_compute; reflexivity|]. discriminate.
Qed.
Lemma tan_odd_tiny_refuted : exists m a, valid F32 m = true /\ (0 < a)%Z /\ fx_tan F32 m = Ok a /\ fx_tan F32 (- m) = Ok a.
Proof. exists 4%Z, 3%Z. split; [reflexivity|]. split; [lia|]. split; vm_compute; reflexivity. Qed.
Lemma acos_minus_one_refuted : exists m a b h, (qval 16 m == -1)%Q /\ fx_asin F32 m = Ok a /\ fx_acos F32 m = Ok b /\ fx_pi_2 F32 = Ok h /\ (a + b <> h)%Z.
Proof. exists (-65536)%Z, (-102943)%Z, 205887%Z, 102943%Z. split; [reflexivity|]. repeat (split; [vm_compute; reflexivity|]). discriminate. Qed.
