(** Statement-level lemmas about sin, cos, tan, atan, asin, acos on the two predefined types. *)
From Coq Require Import ZArith Bool List Lia QArith Qabs Reals Lra Psatz.
From Verif Require Import Base Fixed Math Spec SpecReal BaseLemmas SpecLemmas FixedLemmas ArithProofs StdProofs RealLemmas LogProofs LogThms SinPoly SinProofs SinThms AtanProofs AsinProofs.
Open Scope R_scope.

Definition MIN32 : Z := (-2147483648)%Z.
Definition MIN64 : Z := (-9223372036854775808)%Z.

(** * sin *)
Lemma valid32 m : valid F32 m = true <-> (-2147483648 <= m < 2147483648)%Z.
Proof. rewrite (std_valid F32 s32). cbn [cf F32]. change (2 ^ 16)%Z with 65536%Z. lia. Qed.
Lemma valid64 m : valid F64 m = true <-> (-9223372036854775808 <= m < 9223372036854775808)%Z.
Proof. rewrite (std_valid F64 s64). cbn [cf F64]. change (2 ^ 32)%Z with 4294967296%Z. lia. Qed.
Lemma sin32_valid m : valid F32 (sin32 m) = true.
Proof. pose proof (sin32_int m). apply valid32. lia. Qed.
Lemma sin64_valid m : valid F64 (sin64 m) = true.
Proof. pose proof (sin64_int m). apply valid64. lia. Qed.

Lemma sin32_thm m : valid F32 m = true -> m <> MIN32 ->
  exists r, fx_sin F32 m = Ok r /\ valid F32 r = true /\
  Rabs (rval 16 r - sin (rval 16 m)) <= (16 + 0.14 * Rabs (rval 16 m)) * ulp 16.
Proof. intros V N. exists (sin32 m). split; [apply sin32_eq; auto|]. split; [apply sin32_valid|apply sin32_all]. Qed.
Lemma sin32_nonneg_thm m r : valid F32 m = true -> (0 <= m)%Z -> fx_sin F32 m = Ok r ->
  Rabs (rval 16 r - sin (rval 16 m)) <= (12 + 0.14 * Rabs (rval 16 m)) * ulp 16.
Proof.
  intros V P E. rewrite sin32_eq in E by (auto; unfold MIN32; lia). injection E as <-. apply sin32_nonneg; auto.
Qed.
Lemma sin64_thm m : valid F64 m = true -> m <> MIN64 ->
  exists r, fx_sin F64 m = Ok r /\ valid F64 r = true /\
  Rabs (rval 32 r - sin (rval 32 m)) <= 3.1e-4 + 0.0074 * Rabs (rval 32 m) * ulp 32 /\
  ((0 <= m \/ 644245 <= Z.abs m)%Z -> Rabs (rval 32 r - sin (rval 32 m)) <= 3.71e-6 + 0.0074 * Rabs (rval 32 m) * ulp 32).
Proof.
  intros V N. exists (sin64 m). split; [apply sin64_eq; auto|]. split; [apply sin64_valid|]. split; [apply sin64_all|].
  intros [P|P]; [apply sin64_nonneg; auto|apply sin64_acc; auto].
Qed.

(** oddness *)
Section Odd.
Variables M P H T TH A B C D : Z.
Hypothesis HM : (0 < M)%Z.
Hypothesis HH : (0 < H)%Z.
Hypothesis HT : (0 < T)%Z.
Lemma poly0 : sin_poly_z M P A B C D 0 = 0%Z.
Proof. unfold sin_poly_z, fm. cbv zeta. rewrite !Z.mul_0_l, !Z.mul_0_r, !Z.div_0_l by lia. rewrite ?Z.mul_0_l, ?Z.div_0_l by lia. reflexivity. Qed.
Lemma sin_z_odd m : (TH <= Z.abs m)%Z -> (Z.abs (Z.quot (Z.rem m T * M) H) <= 4 * M)%Z ->
  sin_z M P H T TH A B C D (- m) = (- sin_z M P H T TH A B C D m)%Z.
Proof.
  intros L Q. unfold sin_z, sin_red, sin_neg_z, sin_quad. cbv zeta. rewrite Z.abs_opp.
  rewrite Z.rem_opp_l by lia. rewrite Z.mul_opp_l, Z.quot_opp_l by lia.
  set (q := Z.quot (Z.rem m T * M) H) in *. clearbody q.
  replace (Z.abs m <? TH)%Z with false by (symmetry; apply Z.ltb_ge; lia).
  assert (E0 : forall x, x = 0%Z -> sin_poly_z M P A B C D x = 0%Z) by (intros x ->; apply poly0).
  assert (EE : forall x y, x = y -> sin_poly_z M P A B C D x = sin_poly_z M P A B C D y) by (intros; congruence).
  clear - HM Q E0 EE.
  repeat match goal with |- context [(?a <? ?b)%Z] => destruct (Z.ltb_spec a b) end;
  first [ lia
        | (rewrite !E0 by lia; reflexivity)
        | (match goal with |- (- sin_poly_z _ _ _ _ _ _ ?x)%Z = (- sin_poly_z _ _ _ _ _ _ ?y)%Z => rewrite (EE x y) by lia; reflexivity end)
        | (match goal with |- (sin_poly_z _ _ _ _ _ _ ?x)%Z = (- - sin_poly_z _ _ _ _ _ _ ?y)%Z => rewrite (EE x y) by lia; lia end) ].
Qed.
Lemma sin_z_tiny m : (0 < m < TH)%Z -> (TH <= T)%Z -> (H <= m * M)%Z -> (m * M < 2 * M * H)%Z ->
  sin_z M P H T TH A B C D (- m) = m.
Proof.
  intros L LT G U. unfold sin_z, sin_neg_z, sin_quad. cbv zeta. rewrite Z.abs_opp.
  rewrite Z.rem_opp_l by lia. rewrite Z.mul_opp_l, Z.quot_opp_l by lia. rewrite Z.rem_small by lia.
  assert (Q1 : (1 <= Z.quot (m * M) H)%Z) by (apply Z.quot_le_lower_bound; lia).
  assert (Q2 : (Z.quot (m * M) H < 2 * M)%Z) by (apply Z.quot_lt_upper_bound; lia).
  set (q := Z.quot (m * M) H) in *. clearbody q.
  replace (Z.abs m <? TH)%Z with true by (symmetry; apply Z.ltb_lt; lia).
  replace (- q <? 0)%Z with true by (symmetry; apply Z.ltb_lt; lia).
  replace (2 * M <? - q + 4 * M)%Z with true by (symmetry; apply Z.ltb_lt; lia). lia.
Qed.
End Odd.
Lemma q4 f M H T m : f = M -> (0 < M)%Z -> (0 < H)%Z -> (0 < T)%Z -> ((T - 1) * M < (4 * M + 1) * H)%Z -> (Z.abs (Z.quot (Z.rem m T * M) H) <= 4 * M)%Z.
Proof.
  intros _ HM HH HT L. pose proof (Z.rem_bound_abs m T ltac:(lia)) as R.
  assert (Z.abs (Z.quot (Z.rem m T * M) H) < 4 * M + 1)%Z; [|lia].
  rewrite <- Z.quot_abs by lia. rewrite (Z.abs_eq H) by lia. apply Z.quot_lt_upper_bound; try lia.
  rewrite Z.abs_mul, (Z.abs_eq M) by lia. nia.
Qed.
Lemma sin32_odd m : valid F32 m = true -> m <> MIN32 -> (9 <= Z.abs m)%Z ->
  exists r, fx_sin F32 m = Ok r /\ fx_sin F32 (- m) = Ok (- r)%Z.
Proof.
  intros V N L. apply valid32 in V. unfold MIN32 in N. exists (sin32 m). split; [apply sin32_eq; auto; apply valid32; lia|].
  rewrite sin32_eq by (try apply valid32; lia). f_equal. unfold sin32. apply sin_z_odd; try lia. apply (q4 (2 ^ 16)); auto; lia.
Qed.
Lemma sin64_odd m : valid F64 m = true -> m <> MIN64 -> (644245 <= Z.abs m)%Z ->
  exists r, fx_sin F64 m = Ok r /\ fx_sin F64 (- m) = Ok (- r)%Z.
Proof.
  intros V N L. apply valid64 in V. unfold MIN64 in N. exists (sin64 m). split; [apply sin64_eq; auto; apply valid64; lia|].
  rewrite sin64_eq by (try apply valid64; lia). f_equal. unfold sin64. apply sin_z_odd; try lia. apply (q4 (2 ^ 32)); auto; lia.
Qed.
Lemma sin32_even_tiny m : (2 <= m < 9)%Z -> fx_sin F32 m = Ok m /\ fx_sin F32 (- m) = Ok m.
Proof.
  intros L. rewrite !sin32_eq by (try apply valid32; lia). split; f_equal.
  - apply sin32_tiny; lia.
  - unfold sin32. apply sin_z_tiny; lia.
Qed.
Lemma sin64_even_tiny m : (2 <= m < 644245)%Z -> fx_sin F64 m = Ok m /\ fx_sin F64 (- m) = Ok m.
Proof.
  intros L. rewrite !sin64_eq by (try apply valid64; lia). split; f_equal.
  - apply sin64_tiny; lia.
  - unfold sin64. apply sin_z_tiny; lia.
Qed.

(** * cos *)
Lemma cos32_thm m : valid F32 m = true ->
  exists r, fx_cos F32 m = Ok r /\ valid F32 r = true /\
  Rabs (rval 16 r - cos (rval 16 m)) <= (18 + 0.14 * Rabs (rval 16 m)) * ulp 16.
Proof. intros V. eexists. split; [apply cos32_eq; auto|]. split; [apply sin32_valid|apply cos32_acc]. Qed.
Lemma cos64_thm m : valid F64 m = true ->
  exists r, fx_cos F64 m = Ok r /\ valid F64 r = true /\
  Rabs (rval 32 r - cos (rval 32 m)) <= 3.2e-4 + 0.0074 * Rabs (rval 32 m) * ulp 32.
Proof. intros V. eexists. split; [apply cos64_eq; auto|]. split; [apply sin64_valid|apply cos64_acc]. Qed.

Lemma range32_thm m : valid F32 m = true ->
  (m <> MIN32 -> exists s, fx_sin F32 m = Ok s /\ Rabs (rval 16 s) <= 1 + 8 * ulp 16) /\
  (exists cs, fx_cos F32 m = Ok cs /\ Rabs (rval 16 cs) <= 1 + 8 * ulp 16).
Proof.
  intros V. split.
  - intros N. exists (sin32 m). split; [apply sin32_eq; auto|apply sin32_range].
  - eexists. split; [apply cos32_eq; auto|apply sin32_range].
Qed.
Lemma range64_thm m : valid F64 m = true ->
  (m <> MIN64 -> exists s, fx_sin F64 m = Ok s /\ Rabs (rval 32 s) <= 1 + 3.71e-6) /\
  (exists cs, fx_cos F64 m = Ok cs /\ Rabs (rval 32 cs) <= 1 + 3.71e-6).
Proof.
  intros V. split.
  - intros N. exists (sin64 m). split; [apply sin64_eq; auto|apply sin64_range].
  - eexists. split; [apply cos64_eq; auto|apply sin64_range].
Qed.

(** * tan *)
Lemma tan_thm c m s cs w : std c -> w = bits (ct c) -> valid c m = true -> fx_sin c m = Ok s -> fx_cos c m = Ok cs -> valid c s = true ->
  (Z.abs cs <= 2 * 2 ^ cf c)%Z -> (forall q, (2 * Z.abs q < 2 ^ w)%Z -> valid c q = true) -> (Z.abs s * 2 ^ cf c * 2 < 3 * 2 ^ w)%Z ->
  (fx_tan c m = Throw domain_error <-> (Z.abs cs <= 1)%Z) /\
  (forall q, (1 < Z.abs cs)%Z -> is_trunc (cf c) (qval (cf c) s / qval (cf c) cs) q -> fits w true q -> fx_tan c m = Ok q) /\
  ((2 < Z.abs cs)%Z -> exists q, fx_tan c m = Ok q /\ is_trunc (cf c) (qval (cf c) s / qval (cf c) cs) q).
Proof.
  intros HS Ew V E1 E2 V1 Rc FV BS.
  destruct (tan_eq c m s cs HS V E1 E2 V1 Rc) as [T1 T2].
  pose proof (std_wf c HS) as W. assert (HF : (0 <= cf c)%Z) by (destruct HS as [-> | ->]; cbn; lia).
  split; [|split].
  - split; auto. intros E. destruct (Z.le_gt_cases (Z.abs cs) 1) as [L|G]; auto. rewrite (T2 ltac:(lia)) in E. discriminate.
  - intros q L I F. apply is_trunc_div in I; auto; try lia. rewrite (T2 L). rewrite <- I. f_equal. apply wrap_id.
    + destruct HS as [-> | ->]; reflexivity.
    + subst w. apply in_range_iff. destruct HS as [-> | ->]; exact F.
  - intros L. exists (Z.quot (s * 2 ^ cf c) cs). rewrite (T2 ltac:(lia)). split; [|apply is_trunc_div; auto; lia].
    f_equal. apply wrap_id; [destruct HS as [-> | ->]; reflexivity|]. apply FV. rewrite <- Z.quot_abs by lia. rewrite Z.abs_mul.
    pose proof (Z.pow_pos_nonneg 2 (cf c) ltac:(lia) HF) as HM. rewrite (Z.abs_eq (2 ^ cf c)) by lia.
    set (a := (Z.abs s * 2 ^ cf c)%Z) in *. set (b := Z.abs cs) in *.
    assert (A0 : (0 <= a)%Z) by (unfold a; apply Z.mul_nonneg_nonneg; lia).
    rewrite Z.quot_div_nonneg by lia.
    pose proof (Z.div_le_compat_l a 3 b A0 ltac:(lia)). pose proof (Z.mul_div_le a 3 ltac:(lia)).
    clearbody a b. set (t := (2 ^ w)%Z) in *. clearbody t. clear - H H0 BS. lia.
Qed.
Lemma tan32_thm m : valid F32 m = true -> m <> MIN32 ->
  exists s cs, fx_sin F32 m = Ok s /\ fx_cos F32 m = Ok cs /\
  (fx_tan F32 m = Throw domain_error <-> (Z.abs cs <= 1)%Z) /\
  (forall q, (1 < Z.abs cs)%Z -> is_trunc 16 (qval 16 s / qval 16 cs) q -> fits 32 true q -> fx_tan F32 m = Ok q) /\
  ((2 < Z.abs cs)%Z -> exists q, fx_tan F32 m = Ok q /\ is_trunc 16 (qval 16 s / qval 16 cs) q).
Proof.
  intros V N. exists (sin32 m), (sin32 (cos_arg 102943 308831 m)).
  pose proof (sin32_eq m V N) as E1. pose proof (cos32_eq m V) as E2. split; [exact E1|]. split; [exact E2|].
  apply (tan_thm F32 m _ _ 32 s32); auto.
  - apply sin32_valid.
  - pose proof (sin32_int (cos_arg 102943 308831 m)). cbn [cf F32]. change (2 ^ 16)%Z with 65536%Z. lia.
  - intros q Hq. apply valid32. change (2 ^ 32)%Z with 4294967296%Z in Hq. lia.
  - pose proof (sin32_int m). cbn [cf F32]. change (2 ^ 16)%Z with 65536%Z. change (2 ^ 32)%Z with 4294967296%Z. lia.
Qed.
Lemma tan64_thm m : valid F64 m = true -> m <> MIN64 ->
  exists s cs, fx_sin F64 m = Ok s /\ fx_cos F64 m = Ok cs /\
  (fx_tan F64 m = Throw domain_error <-> (Z.abs cs <= 1)%Z) /\
  (forall q, (1 < Z.abs cs)%Z -> is_trunc 32 (qval 32 s / qval 32 cs) q -> fits 64 true q -> fx_tan F64 m = Ok q) /\
  ((2 < Z.abs cs)%Z -> exists q, fx_tan F64 m = Ok q /\ is_trunc 32 (qval 32 s / qval 32 cs) q).
Proof.
  intros V N. exists (sin64 m), (sin64 (cos_arg 6746518852 20239556556 m)).
  pose proof (sin64_eq m V N) as E1. pose proof (cos64_eq m V) as E2. split; [exact E1|]. split; [exact E2|].
  apply (tan_thm F64 m _ _ 64 s64); auto.
  - apply sin64_valid.
  - pose proof (sin64_int (cos_arg 6746518852 20239556556 m)). cbn [cf F64]. change (2 ^ 32)%Z with 4294967296%Z. lia.
  - intros q Hq. apply valid64. change (2 ^ 64)%Z with 18446744073709551616%Z in Hq. lia.
  - pose proof (sin64_int m). cbn [cf F64]. change (2 ^ 32)%Z with 4294967296%Z. change (2 ^ 64)%Z with 18446744073709551616%Z. lia.
Qed.

(** * atan on [-1,1] *)
Lemma atan_v32 m : (Z.abs m <= 65536)%Z -> Rabs (rval 16 (atan32 m) - atan (rval 16 m)) <= 4e-4.
Proof. apply atan32_acc. Qed.
Lemma atan32_thm m : Rabs (rval 16 m) <= 1 ->
  exists r, fx_atan F32 m = Ok r /\ valid F32 r = true /\ Rabs (rval 16 r - atan (rval 16 m)) <= 4e-4.
Proof.
  intros R. rewrite rval_abs in R. unfold rval in R. change (IZR (2 ^ 16)) with 65536 in R.
  assert (L : (Z.abs m <= 65536)%Z) by (apply le_IZR; lra).
  exists (atan32 m). split; [apply atan32_eq; auto|]. pose proof (atan32_acc m L) as A. split; auto.
  apply valid32. pose proof (atan_bound (rval 16 m)) as [B1 B2]. pose proof PI_4. pose proof PI2_3_2.
  assert (Rabs (rval 16 (atan32 m)) <= 3).
  { apply Rabs_le. apply Rabs_inv_le in A. split; lra. }
  rewrite rval_abs in H1. unfold rval in H1. change (IZR (2 ^ 16)) with 65536 in H1.
  assert (Z.abs (atan32 m) <= 196608)%Z by (apply le_IZR; lra). lia.
Qed.
Lemma atan64_thm m : Rabs (rval 32 m) <= 1 ->
  exists r, fx_atan F64 m = Ok r /\ valid F64 r = true /\ Rabs (rval 32 r - atan (rval 32 m)) <= 2.71e-4.
Proof.
  intros R. rewrite rval_abs in R. unfold rval in R. change (IZR (2 ^ 32)) with 4294967296 in R.
  assert (L : (Z.abs m <= 4294967296)%Z) by (apply le_IZR; lra).
  exists (atan64 m). split; [apply atan64_eq; auto|]. pose proof (atan64_acc m L) as A. split; auto.
  apply valid64. pose proof (atan_bound (rval 32 m)) as [B1 B2]. pose proof PI_4. pose proof PI2_3_2.
  assert (Rabs (rval 32 (atan64 m)) <= 3).
  { apply Rabs_le. apply Rabs_inv_le in A. split; lra. }
  rewrite rval_abs in H1. unfold rval in H1. change (IZR (2 ^ 32)) with 4294967296 in H1.
  assert (Z.abs (atan64 m) <= 12884901888)%Z by (apply le_IZR; lra). lia.
Qed.
Lemma atan_small_ok c m : std c -> Rabs (rval (cf c) m) <= 1 ->
  valid c m = true /\ valid c (- m) = true /\ exists r, fx_atan c m = Ok r /\ valid c r = true /\ valid c (- r) = true.
Proof.
  intros HS R. destruct HS as [-> | ->].
  - destruct (atan32_thm m R) as (r & E & V & A). rewrite rval_abs in R. unfold rval in R. cbn [cf F32] in R. change (IZR (2 ^ 16)) with 65536 in R.
    assert (L : (Z.abs m <= 65536)%Z) by (apply le_IZR; lra). split; [apply valid32; lia|]. split; [apply valid32; lia|]. exists r. split; auto. split; auto.
    apply valid32 in V. pose proof (atan_bound (rval 16 m)) as [B1 B2]. pose proof PI_4. apply Rabs_inv_le in A.
    assert (B : -3 <= rval 16 r) by lra. unfold rval in B. change (IZR (2 ^ 16)) with 65536 in B.
    apply valid32. assert (-196608 <= r)%Z by (apply le_IZR; lra). lia.
  - destruct (atan64_thm m R) as (r & E & V & A). rewrite rval_abs in R. unfold rval in R. cbn [cf F64] in R. change (IZR (2 ^ 32)) with 4294967296 in R.
    assert (L : (Z.abs m <= 4294967296)%Z) by (apply le_IZR; lra). split; [apply valid64; lia|]. split; [apply valid64; lia|]. exists r. split; auto. split; auto.
    apply valid64 in V. pose proof (atan_bound (rval 32 m)) as [B1 B2]. pose proof PI_4. apply Rabs_inv_le in A.
    assert (B : -3 <= rval 32 r) by lra. unfold rval in B. change (IZR (2 ^ 32)) with 4294967296 in B.
    apply valid64. assert (-12884901888 <= r)%Z by (apply le_IZR; lra). lia.
Qed.
Lemma atan_odd c m : std c -> Rabs (rval (cf c) m) <= 1 ->
  exists r, fx_atan c m = Ok r /\ fx_atan c (- m) = Ok (- r)%Z.
Proof.
  intros HS R. destruct (atan_small_ok c m HS R) as (V & V' & r & E & V1 & V2).
  destruct (Z.lt_trichotomy m 0) as [L|[->|L]].
  - exists r. split; auto.
    assert (R' : Rabs (rval (cf c) (- m)) <= 1) by (rewrite rval_opp, Rabs_Ropp; auto).
    destruct (atan_small_ok c _ HS R') as (_ & _ & r' & E' & V3 & V4).
    pose proof (atan_pos_neg c (- m) HS V' ltac:(lia)) as O. rewrite Z.opp_involutive, E, E' in O. cbn [bind] in O.
    rewrite s_neg in O by assumption. injection O as O. rewrite E'. f_equal. lia.
  - exists 0%Z. destruct HS as [-> | ->]; split; reflexivity.
  - exists r. split; auto. rewrite atan_pos_neg by auto. rewrite E. cbn [bind]. apply s_neg; auto.
Qed.

(** * asin and acos *)
Lemma asin_domain_thm c m : std c -> valid c m = true -> valid c (- m) = true -> 1 < Rabs (rval (cf c) m) ->
  fx_asin c m = Throw domain_error /\ fx_acos c m = Throw domain_error.
Proof.
  intros HS V V' R. apply asin_domain; auto. rewrite rval_abs in R. unfold rval in R.
  destruct HS as [-> | ->]; cbn [cf F32 F64] in *.
  - change (IZR (2 ^ 16)) with 65536 in R. apply lt_IZR. change (IZR (2 ^ 16)) with 65536. lra.
  - change (IZR (2 ^ 32)) with 4294967296 in R. apply lt_IZR. change (IZR (2 ^ 32)) with 4294967296. lra.
Qed.
Lemma asin32_def_thm m : Rabs (rval 16 m) <= 1 ->
  (exists r, fx_asin F32 m = Ok r /\ valid F32 r = true) /\ (exists r, fx_acos F32 m = Ok r /\ valid F32 r = true).
Proof.
  intros R. rewrite rval_abs in R. unfold rval in R. change (IZR (2 ^ 16)) with 65536 in R.
  assert (L : (Z.abs m <= 65536)%Z) by (apply le_IZR; lra). split; [apply asin32_def|apply acos32_def]; auto.
Qed.
Lemma asin_consts c : std c -> forall P, pi_v c = Ok P -> forall H N, is_trunc 0 (inject_Z P / 2) H -> is_trunc 0 (inject_Z (- P) / 2) N ->
  fx_asin c (2 ^ cf c) = Ok H /\ fx_asin c (- 2 ^ cf c) = Ok N /\ fx_acos c (2 ^ cf c) = Ok 0%Z /\ fx_acos c (- 2 ^ cf c) = Ok P /\ fx_acos c 0 = Ok H.
Proof.
  intros HS P EP H N IH IN.
  assert (EH : H = Z.quot P 2).
  { pose proof (is_trunc_div 0 P 2 H ltac:(lia) ltac:(discriminate)) as D. rewrite Z.mul_1_r in D. apply D.
    revert IH. unfold is_trunc. unfold qval. change (2 ^ 0)%Z with 1%Z. intros IH.
    assert (QQ : (inject_Z P / 2 == (P # 1) / (2 # 1))%Q) by reflexivity. exact IH. }
  assert (EN : N = Z.quot (- P) 2).
  { pose proof (is_trunc_div 0 (- P) 2 N ltac:(lia) ltac:(discriminate)) as D. rewrite Z.mul_1_r in D. apply D. exact IN. }
  subst H N. destruct HS as [-> | ->].
  - assert (P = 205887)%Z by (assert (pi_v F32 = Ok 205887%Z) by reflexivity; congruence). subst P. repeat split; vm_compute; reflexivity.
  - assert (P = 13493037704)%Z by (assert (pi_v F64 = Ok 13493037704%Z) by reflexivity; congruence). subst P. repeat split; vm_compute; reflexivity.
Qed.

(** * logarithms *)
Lemma rval_pos_iff f m : (0 <= f)%Z -> (0 < rval f m <-> (0 < m)%Z).
Proof.
  intros F. assert (P : 0 < IZR (2 ^ f)) by (apply IZR_lt; apply Z.pow_pos_nonneg; lia). unfold rval. split; intros H.
  - apply lt_IZR. apply Rmult_lt_reg_r with (/ IZR (2 ^ f)); [apply Rinv_0_lt_compat; auto|]. rewrite Rmult_0_l. exact H.
  - apply Rdiv_lt_0_compat; auto. apply IZR_lt. auto.
Qed.
Lemma rval_le0_iff f m : (0 <= f)%Z -> (rval f m <= 0 <-> (m <= 0)%Z).
Proof.
  intros F. pose proof (rval_pos_iff f m F) as I. split; intros H.
  - destruct (Z.le_gt_cases m 0); auto. assert (0 < rval f m) by (apply I; lia). lra.
  - apply Rnot_lt_le. intros C. apply I in C. lia.
Qed.
Lemma std_f0 c : std c -> (0 <= cf c)%Z.
Proof. intros [-> | ->]; cbn; lia. Qed.
Lemma log2_thm c m : std c -> valid c m = true -> 0 < rval (cf c) m ->
  exists r, fx_log2 c m = Ok r /\ valid c r = true /\
    rval (cf c) r <= log2r (rval (cf c) m) < rval (cf c) r + 4 * ulp (cf c).
Proof. intros HS V P. apply rval_pos_iff in P; [|apply std_f0; auto]. apply log2_acc; auto. Qed.
Lemma log2_domain_thm c m : std c -> valid c m = true -> (fx_log2 c m = Throw domain_error <-> rval (cf c) m <= 0).
Proof. intros HS V. rewrite rval_le0_iff by (apply std_f0; auto). apply log2_domain; auto. Qed.
Lemma log32_thm m : valid F32 m = true -> 0 < rval 16 m ->
  exists r, fx_log F32 m = Ok r /\ valid F32 r = true /\ Rabs (rval 16 r - ln (rval 16 m)) <= 8 * ulp 16.
Proof. intros V P. apply rval_pos_iff in P; [|lia]. apply log_acc32; auto. Qed.
Lemma log64_thm m : valid F64 m = true -> 0 < rval 32 m ->
  exists r, fx_log F64 m = Ok r /\ valid F64 r = true /\ Rabs (rval 32 r - ln (rval 32 m)) <= 15 * ulp 32.
Proof. intros V P. apply rval_pos_iff in P; [|lia]. apply log_acc64; auto. Qed.
Lemma log10_32_thm m : valid F32 m = true -> 0 < rval 16 m ->
  exists r, fx_log10 F32 m = Ok r /\ valid F32 r = true /\ Rabs (rval 16 r - log10r (rval 16 m)) <= 4 * ulp 16.
Proof. intros V P. apply rval_pos_iff in P; [|lia]. apply log10_acc32; auto. Qed.
Lemma log10_64_thm m : valid F64 m = true -> 0 < rval 32 m ->
  exists r, fx_log10 F64 m = Ok r /\ valid F64 r = true /\ Rabs (rval 32 r - log10r (rval 32 m)) <= 4 * ulp 32.
Proof. intros V P. apply rval_pos_iff in P; [|lia]. apply log10_acc64; auto. Qed.
Lemma log_domain_thm c m : std c -> valid c m = true ->
  (fx_log c m = Throw domain_error <-> rval (cf c) m <= 0) /\ (fx_log10 c m = Throw domain_error <-> rval (cf c) m <= 0).
Proof.
  intros HS V. rewrite rval_le0_iff by (apply std_f0; auto).
  assert (NP : (0 < m)%Z -> fx_log c m <> Throw domain_error /\ fx_log10 c m <> Throw domain_error).
  { intros P. destruct HS as [-> | ->].
    - destruct (log_acc32 m V P) as (r & E & _). destruct (log10_acc32 m V P) as (r' & E' & _). rewrite E, E'. split; discriminate.
    - destruct (log_acc64 m V P) as (r & E & _). destruct (log10_acc64 m V P) as (r' & E' & _). rewrite E, E'. split; discriminate. }
  split; split; intros H; try (apply (log_domain c m HS V H)).
  - destruct (Z.le_gt_cases m 0); auto. destruct (NP ltac:(lia)). contradiction.
  - destruct (Z.le_gt_cases m 0); auto. destruct (NP ltac:(lia)). contradiction.
Qed.
