(** Logarithms of products and quotients. *)
From Coq Require Import ZArith QArith Reals Lia Lra Psatz Bool.
From Interval Require Import Tactic.
From Verif Require Import Base Fixed Math Spec SpecLemmas SpecReal BaseLemmas FixedLemmas CLemmas MathProofs PowProofs RealLemmas StdProofs LogThms RealThms.
Open Scope R_scope.

(** ln q <= ln x <= ln q + u/q when q <= x < q + u *)
Lemma ln_trunc q x u : 0 < q -> q <= x < q + u -> 0 <= ln x - ln q <= u / q.
Proof.
  intros Q [L H]. split.
  - destruct L as [L| ->]; [|lra]. pose proof (ln_increasing q x Q L). lra.
  - assert (LD : ln x - ln q = ln (x / q)).
    { assert (0 < x / q) by (apply Rdiv_lt_0_compat; lra). replace x with (q * (x / q)) at 1 by (field; lra). rewrite ln_mult by lra. ring. }
    rewrite LD. clear LD.
    assert (D : x / q < 1 + u / q).
    { apply Rmult_lt_reg_r with q; auto. unfold Rdiv. rewrite Rmult_assoc, Rinv_l, Rmult_1_r by lra.
      rewrite Rmult_plus_distr_r, Rmult_assoc, Rinv_l by lra. lra. }
    assert (P : 0 < x / q) by (apply Rdiv_lt_0_compat; lra).
    pose proof (ln_increasing _ _ P D). pose proof (exp_ineq1_le (u / q)) as E.
    assert (ln (1 + u / q) <= u / q).
    { rewrite <- (ln_exp (u / q)) at 2. destruct E as [E|E]; [left; apply ln_increasing; lra|rewrite E; lra]. }
    lra.
Qed.

Lemma ln_quot x y : 0 < x -> 0 < y -> ln (x / y) = ln x - ln y.
Proof. intros X Y. unfold Rdiv. rewrite ln_mult, ln_Rinv by (auto; apply Rinv_0_lt_compat; auto). ring. Qed.
Lemma scaled x y i : 0 < i -> x <= y < x + 1 -> x * i <= y * i < x * i + i.
Proof. intros. split; [apply Rmult_le_compat_r; lra|]. replace (x * i + i) with ((x + 1) * i) by ring. apply Rmult_lt_compat_r; lra. Qed.

Section S.
Variable c : cfg.
Hypothesis HS : std c.
Let M := (2 ^ cf c)%Z.

Lemma std_top : (2 ^ (bits (ct c) - 1) - 1 = maxv (ct c) /\ minv (ct c) <= 0)%Z.
Proof. destruct HS as [-> | ->]; vm_compute; split; congruence. Qed.
Lemma M_pos : 0 < IZR M.
Proof. apply IZR_lt. unfold M. destruct HS as [-> | ->]; vm_compute; reflexivity. Qed.
Lemma rval_pos a : 0 < rval (cf c) a <-> (0 < a)%Z.
Proof.
  pose proof M_pos as P. unfold rval. fold M. split; intros H.
  - apply lt_IZR. apply Rmult_lt_reg_r with (/ IZR M); [apply Rinv_0_lt_compat; auto|]. unfold Rdiv in H. lra.
  - apply Rdiv_lt_0_compat; auto. apply IZR_lt. auto.
Qed.
Lemma pos_valid k : (0 <= k < 2 ^ (bits (ct c) - 1))%Z -> valid c k = true.
Proof. intros K. destruct std_top as [T N]. apply in_range_iff. lia. Qed.

Lemma mul_pos a b : valid c a = true -> valid c b = true -> 0 < rval (cf c) a -> 0 < rval (cf c) b ->
  rval (cf c) a * rval (cf c) b < rval (cf c) (2 ^ (bits (ct c) - 1)) ->
  exists p, fx_mul c a b = Ok p /\ valid c p = true /\ rval (cf c) p <= rval (cf c) a * rval (cf c) b < rval (cf c) p + ulp (cf c).
Proof.
  intros Va Vb Pa Pb H. apply rval_pos in Pa. apply rval_pos in Pb. pose proof M_pos as MP. pose proof (lt_IZR _ _ MP) as MP'.
  pose proof (div_real (a * b) M ltac:(lia)) as D. rewrite mult_IZR in D.
  assert (I : 0 < / IZR M) by (apply Rinv_0_lt_compat; auto).
  assert (E : rval (cf c) a * rval (cf c) b = (IZR a * IZR b / IZR M) * / IZR M) by (unfold rval; fold M; unfold Rdiv; ring).
  assert (V : valid c (a * b / M) = true).
  { apply pos_valid. split; [apply Z.div_pos; nia|]. apply lt_IZR. rewrite E in H. unfold rval at 1 in H. fold M in H. unfold Rdiv at 2 in H.
    apply Rmult_lt_reg_r in H; auto. lra. }
  exists (a * b / M)%Z. split; [apply s_mul; auto|]. split; [exact V|]. rewrite E. unfold rval, ulp. fold M. 
  apply scaled; auto.
Qed.
Lemma div_pos a b : valid c a = true -> valid c b = true -> 0 < rval (cf c) a -> 0 < rval (cf c) b ->
  rval (cf c) a / rval (cf c) b < rval (cf c) (2 ^ (bits (ct c) - 1)) ->
  exists p, fx_div c a b = Ok p /\ valid c p = true /\ rval (cf c) p <= rval (cf c) a / rval (cf c) b < rval (cf c) p + ulp (cf c).
Proof.
  intros Va Vb Pa Pb H. apply rval_pos in Pa. apply rval_pos in Pb. pose proof M_pos as MP. pose proof (lt_IZR _ _ MP) as MP'.
  pose proof (div_real (a * M) b ltac:(lia)) as D. rewrite mult_IZR in D.
  assert (I : 0 < / IZR M) by (apply Rinv_0_lt_compat; auto). assert (BP : 0 < IZR b) by (apply IZR_lt; auto).
  assert (E : rval (cf c) a / rval (cf c) b = (IZR a * IZR M / IZR b) * / IZR M) by (unfold rval; fold M; field; lra).
  assert (Q : Z.quot (a * M) b = (a * M / b)%Z) by (apply Z.quot_div_nonneg; nia).
  assert (V : valid c (a * M / b) = true).
  { apply pos_valid. split; [apply Z.div_pos; nia|]. apply lt_IZR. rewrite E in H. unfold rval at 1 in H. fold M in H. unfold Rdiv at 2 in H.
    apply Rmult_lt_reg_r in H; auto. lra. }
  exists (a * M / b)%Z. split; [rewrite <- Q; apply s_div; auto; [lia|fold M; rewrite Q; auto]|]. split; [exact V|]. rewrite E. unfold rval, ulp. fold M. 
  apply scaled; auto.
Qed.
End S.

(** what the two rounding steps cost *)
Lemma log_scaled K q x u k : 0 < K -> 1 <= k * K -> 0 < q -> q <= x < q + u -> 0 <= ln x / K - ln q / K <= k * u / q.
Proof.
  intros P KK Q H. pose proof (ln_trunc q x u Q H) as [A B]. assert (U : 0 < u / q) by (apply Rdiv_lt_0_compat; lra).
  assert (I : 0 < / K) by (apply Rinv_0_lt_compat; auto).
  assert (IK : / K <= k). { apply Rmult_le_reg_r with K; auto. rewrite Rinv_l; lra. }
  unfold Rdiv. rewrite <- Rmult_minus_distr_r. split; [apply Rmult_le_pos; lra|].
  apply Rle_trans with (u / q * / K); [apply Rmult_le_compat_r; lra|].
  replace (k * u * / q) with (u / q * k) by (unfold Rdiv; ring). apply Rmult_le_compat_l; lra.
Qed.
Lemma ln2_lo : 1 <= 1.4427 * ln 2. Proof. interval. Qed.
Lemma ln10_lo : 1 <= 0.4343 * ln 10. Proof. interval. Qed.
Lemma ln2_pos : 0 < ln 2. Proof. interval. Qed.
Lemma ln10_pos : 0 < ln 10. Proof. interval. Qed.

Lemma log2_product c a b : std c -> valid c a = true -> valid c b = true -> 0 < rval (cf c) a -> 0 < rval (cf c) b ->
  rval (cf c) a * rval (cf c) b < rval (cf c) (2 ^ (bits (ct c) - 1)) ->
  exists p, fx_mul c a b = Ok p /\ (0 < rval (cf c) p ->
  exists la lb lp, fx_log2 c a = Ok la /\ fx_log2 c b = Ok lb /\ fx_log2 c p = Ok lp /\
  - (4 * ulp (cf c) + 1.4427 * ulp (cf c) / rval (cf c) p) < rval (cf c) lp - (rval (cf c) la + rval (cf c) lb) < 8 * ulp (cf c)).
Proof.
  intros HS Va Vb Pa Pb H. destruct (mul_pos c HS a b Va Vb Pa Pb H) as (p & E & Vp & B).
  exists p. split; [exact E|]. intros Pp.
  destruct (log2_thm c a HS Va Pa) as (la & Ea & _ & Ba). destruct (log2_thm c b HS Vb Pb) as (lb & Eb & _ & Bb).
  destruct (log2_thm c p HS Vp Pp) as (lp & Ep & _ & Bp). exists la, lb, lp. repeat (split; [assumption|]).
  pose proof (log_scaled (ln 2) (rval (cf c) p) _ (ulp (cf c)) 1.4427 ln2_pos ln2_lo Pp B) as L. rewrite ln_mult in L by auto. rewrite Rdiv_plus_distr in L.
  unfold log2r in *. unfold Rdiv in *. split; lra.
Qed.
Lemma log2_quotient c a b : std c -> valid c a = true -> valid c b = true -> 0 < rval (cf c) a -> 0 < rval (cf c) b ->
  rval (cf c) a / rval (cf c) b < rval (cf c) (2 ^ (bits (ct c) - 1)) ->
  exists q, fx_div c a b = Ok q /\ (0 < rval (cf c) q ->
  exists la lb lq, fx_log2 c a = Ok la /\ fx_log2 c b = Ok lb /\ fx_log2 c q = Ok lq /\
  - (8 * ulp (cf c) + 1.4427 * ulp (cf c) / rval (cf c) q) < rval (cf c) lq - (rval (cf c) la - rval (cf c) lb) < 4 * ulp (cf c)).
Proof.
  intros HS Va Vb Pa Pb H. destruct (div_pos c HS a b Va Vb Pa Pb H) as (p & E & Vp & B).
  exists p. split; [exact E|]. intros Pp.
  destruct (log2_thm c a HS Va Pa) as (la & Ea & _ & Ba). destruct (log2_thm c b HS Vb Pb) as (lb & Eb & _ & Bb).
  destruct (log2_thm c p HS Vp Pp) as (lp & Ep & _ & Bp). exists la, lb, lp. repeat (split; [assumption|]).
  pose proof (log_scaled (ln 2) (rval (cf c) p) _ (ulp (cf c)) 1.4427 ln2_pos ln2_lo Pp B) as L.
  rewrite ln_quot in L by auto. rewrite Rdiv_minus_distr in L.
  unfold log2r in *. unfold Rdiv in *. split; lra.
Qed.

(** the same for a logarithm of base e^K known to within [e] *)
Lemma log_product (f : Z -> res Z) c K k e a b : std c -> 0 < K -> 1 <= k * K ->
  (forall m, valid c m = true -> 0 < rval (cf c) m -> exists r, f m = Ok r /\ valid c r = true /\ Rabs (rval (cf c) r - ln (rval (cf c) m) / K) <= e) ->
  valid c a = true -> valid c b = true -> 0 < rval (cf c) a -> 0 < rval (cf c) b ->
  rval (cf c) a * rval (cf c) b < rval (cf c) (2 ^ (bits (ct c) - 1)) ->
  exists p, fx_mul c a b = Ok p /\ (0 < rval (cf c) p ->
  exists la lb lp, f a = Ok la /\ f b = Ok lb /\ f p = Ok lp /\
  Rabs (rval (cf c) lp - (rval (cf c) la + rval (cf c) lb)) <= 3 * e + k * ulp (cf c) / rval (cf c) p).
Proof.
  intros HS KP KK F Va Vb Pa Pb H. destruct (mul_pos c HS a b Va Vb Pa Pb H) as (p & E & Vp & B).
  exists p. split; [exact E|]. intros Pp.
  destruct (F a Va Pa) as (la & Ea & _ & Ba). destruct (F b Vb Pb) as (lb & Eb & _ & Bb).
  destruct (F p Vp Pp) as (lp & Ep & _ & Bp). exists la, lb, lp. repeat (split; [assumption|]).
  pose proof (log_scaled K (rval (cf c) p) _ (ulp (cf c)) k KP KK Pp B) as L. rewrite ln_mult in L by auto. rewrite Rdiv_plus_distr in L.
  unfold Rdiv in *. apply Rabs_inv_le in Ba, Bb, Bp. apply Rabs_le. split; lra.
Qed.
Lemma log_quotient (f : Z -> res Z) c K k e a b : std c -> 0 < K -> 1 <= k * K ->
  (forall m, valid c m = true -> 0 < rval (cf c) m -> exists r, f m = Ok r /\ valid c r = true /\ Rabs (rval (cf c) r - ln (rval (cf c) m) / K) <= e) ->
  valid c a = true -> valid c b = true -> 0 < rval (cf c) a -> 0 < rval (cf c) b ->
  rval (cf c) a / rval (cf c) b < rval (cf c) (2 ^ (bits (ct c) - 1)) ->
  exists p, fx_div c a b = Ok p /\ (0 < rval (cf c) p ->
  exists la lb lp, f a = Ok la /\ f b = Ok lb /\ f p = Ok lp /\
  Rabs (rval (cf c) lp - (rval (cf c) la - rval (cf c) lb)) <= 3 * e + k * ulp (cf c) / rval (cf c) p).
Proof.
  intros HS KP KK F Va Vb Pa Pb H. destruct (div_pos c HS a b Va Vb Pa Pb H) as (p & E & Vp & B).
  exists p. split; [exact E|]. intros Pp.
  destruct (F a Va Pa) as (la & Ea & _ & Ba). destruct (F b Vb Pb) as (lb & Eb & _ & Bb).
  destruct (F p Vp Pp) as (lp & Ep & _ & Bp). exists la, lb, lp. repeat (split; [assumption|]).
  pose proof (log_scaled K (rval (cf c) p) _ (ulp (cf c)) k KP KK Pp B) as L.
  rewrite ln_quot in L by auto. rewrite Rdiv_minus_distr in L.
  unfold Rdiv in *. apply Rabs_inv_le in Ba, Bb, Bp. apply Rabs_le. split; lra.
Qed.

Lemma log1_32 m : valid F32 m = true -> 0 < rval 16 m -> exists r, fx_log F32 m = Ok r /\ valid F32 r = true /\ Rabs (rval 16 r - ln (rval 16 m) / 1) <= 8 * ulp 16.
Proof. intros. unfold Rdiv. rewrite Rinv_1, Rmult_1_r. apply log32_thm; auto. Qed.
Lemma log1_64 m : valid F64 m = true -> 0 < rval 32 m -> exists r, fx_log F64 m = Ok r /\ valid F64 r = true /\ Rabs (rval 32 r - ln (rval 32 m) / 1) <= 15 * ulp 32.
Proof. intros. unfold Rdiv. rewrite Rinv_1, Rmult_1_r. apply log64_thm; auto. Qed.

Ltac fin := match goal with H : exists p, _ |- _ => destruct H as (p & ?E & ?F); exists p; split; [exact E|]; intros ?P;
  destruct (F P) as (la & lb & lp & ?A & ?B & ?C & ?D); exists la, lb, lp; repeat (split; [assumption|]) end;
  eapply Rle_trans; [eassumption|]; cbn [cf F32 F64]; lra.

Lemma ln_product32 a b : valid F32 a = true -> valid F32 b = true -> 0 < rval 16 a -> 0 < rval 16 b -> rval 16 a * rval 16 b < 32768 ->
  exists p, fx_mul F32 a b = Ok p /\ (0 < rval 16 p ->
  exists la lb lp, fx_log F32 a = Ok la /\ fx_log F32 b = Ok lb /\ fx_log F32 p = Ok lp /\
  Rabs (rval 16 lp - (rval 16 la + rval 16 lb)) <= 24 * ulp 16 + ulp 16 / rval 16 p).
Proof.
  intros Va Vb Pa Pb H. assert (T : rval 16 (2 ^ 31) = 32768) by (unfold rval; change (IZR (2 ^ 16)) with 65536; change (IZR (2 ^ 31)) with 2147483648; lra).
  pose proof (log_product (fx_log F32) F32 1 1 (8 * ulp 16) a b (or_introl eq_refl) ltac:(lra) ltac:(lra) log1_32 Va Vb Pa Pb ltac:(cbn [cf F32 ct bits int32]; change (32 - 1)%Z with 31%Z; rewrite T; exact H)) as X.
  fin.
Qed.
Lemma ln_product64 a b : valid F64 a = true -> valid F64 b = true -> 0 < rval 32 a -> 0 < rval 32 b -> rval 32 a * rval 32 b < 2147483648 ->
  exists p, fx_mul F64 a b = Ok p /\ (0 < rval 32 p ->
  exists la lb lp, fx_log F64 a = Ok la /\ fx_log F64 b = Ok lb /\ fx_log F64 p = Ok lp /\
  Rabs (rval 32 lp - (rval 32 la + rval 32 lb)) <= 45 * ulp 32 + ulp 32 / rval 32 p).
Proof.
  intros Va Vb Pa Pb H. assert (T : rval 32 (2 ^ 63) = 2147483648) by (unfold rval; change (IZR (2 ^ 32)) with 4294967296; change (IZR (2 ^ 63)) with 9223372036854775808; lra).
  pose proof (log_product (fx_log F64) F64 1 1 (15 * ulp 32) a b (or_intror eq_refl) ltac:(lra) ltac:(lra) log1_64 Va Vb Pa Pb ltac:(cbn [cf F64 ct bits int64]; change (64 - 1)%Z with 63%Z; rewrite T; exact H)) as X.
  fin.
Qed.
Lemma ln_quotient32 a b : valid F32 a = true -> valid F32 b = true -> 0 < rval 16 a -> 0 < rval 16 b -> rval 16 a / rval 16 b < 32768 ->
  exists p, fx_div F32 a b = Ok p /\ (0 < rval 16 p ->
  exists la lb lp, fx_log F32 a = Ok la /\ fx_log F32 b = Ok lb /\ fx_log F32 p = Ok lp /\
  Rabs (rval 16 lp - (rval 16 la - rval 16 lb)) <= 24 * ulp 16 + ulp 16 / rval 16 p).
Proof.
  intros Va Vb Pa Pb H. assert (T : rval 16 (2 ^ 31) = 32768) by (unfold rval; change (IZR (2 ^ 16)) with 65536; change (IZR (2 ^ 31)) with 2147483648; lra).
  pose proof (log_quotient (fx_log F32) F32 1 1 (8 * ulp 16) a b (or_introl eq_refl) ltac:(lra) ltac:(lra) log1_32 Va Vb Pa Pb ltac:(cbn [cf F32 ct bits int32]; change (32 - 1)%Z with 31%Z; rewrite T; exact H)) as X.
  fin.
Qed.
Lemma ln_quotient64 a b : valid F64 a = true -> valid F64 b = true -> 0 < rval 32 a -> 0 < rval 32 b -> rval 32 a / rval 32 b < 2147483648 ->
  exists p, fx_div F64 a b = Ok p /\ (0 < rval 32 p ->
  exists la lb lp, fx_log F64 a = Ok la /\ fx_log F64 b = Ok lb /\ fx_log F64 p = Ok lp /\
  Rabs (rval 32 lp - (rval 32 la - rval 32 lb)) <= 45 * ulp 32 + ulp 32 / rval 32 p).
Proof.
  intros Va Vb Pa Pb H. assert (T : rval 32 (2 ^ 63) = 2147483648) by (unfold rval; change (IZR (2 ^ 32)) with 4294967296; change (IZR (2 ^ 63)) with 9223372036854775808; lra).
  pose proof (log_quotient (fx_log F64) F64 1 1 (15 * ulp 32) a b (or_intror eq_refl) ltac:(lra) ltac:(lra) log1_64 Va Vb Pa Pb ltac:(cbn [cf F64 ct bits int64]; change (64 - 1)%Z with 63%Z; rewrite T; exact H)) as X.
  fin.
Qed.

Lemma log10_std c m : std c -> valid c m = true -> 0 < rval (cf c) m ->
  exists r, fx_log10 c m = Ok r /\ valid c r = true /\ Rabs (rval (cf c) r - ln (rval (cf c) m) / ln 10) <= 4 * ulp (cf c).
Proof. intros [-> | ->] V P; [apply log10_32_thm|apply log10_64_thm]; auto. Qed.
Lemma log10_product c a b : std c -> valid c a = true -> valid c b = true -> 0 < rval (cf c) a -> 0 < rval (cf c) b ->
  rval (cf c) a * rval (cf c) b < rval (cf c) (2 ^ (bits (ct c) - 1)) ->
  exists p, fx_mul c a b = Ok p /\ (0 < rval (cf c) p ->
  exists la lb lp, fx_log10 c a = Ok la /\ fx_log10 c b = Ok lb /\ fx_log10 c p = Ok lp /\
  Rabs (rval (cf c) lp - (rval (cf c) la + rval (cf c) lb)) <= 12 * ulp (cf c) + 0.4343 * ulp (cf c) / rval (cf c) p).
Proof.
  intros HS Va Vb Pa Pb H.
  pose proof (log_product (fx_log10 c) c (ln 10) 0.4343 (4 * ulp (cf c)) a b HS ln10_pos ln10_lo (fun m => log10_std c m HS) Va Vb Pa Pb H) as X.
  fin.
Qed.
Lemma log10_quotient c a b : std c -> valid c a = true -> valid c b = true -> 0 < rval (cf c) a -> 0 < rval (cf c) b ->
  rval (cf c) a / rval (cf c) b < rval (cf c) (2 ^ (bits (ct c) - 1)) ->
  exists p, fx_div c a b = Ok p /\ (0 < rval (cf c) p ->
  exists la lb lp, fx_log10 c a = Ok la /\ fx_log10 c b = Ok lb /\ fx_log10 c p = Ok lp /\
  Rabs (rval (cf c) lp - (rval (cf c) la - rval (cf c) lb)) <= 12 * ulp (cf c) + 0.4343 * ulp (cf c) / rval (cf c) p).
Proof.
  intros HS Va Vb Pa Pb H.
  pose proof (log_quotient (fx_log10 c) c (ln 10) 0.4343 (4 * ulp (cf c)) a b HS ln10_pos ln10_lo (fun m => log10_std c m HS) Va Vb Pa Pb H) as X.
  fin.
Qed.
