(** Accuracy of asin and acos on [-0.7, 0.7] (math.hpp:312-349). *)
From Coq Require Import ZArith QArith Qabs Qreals Reals Lia Lra Psatz.
From Interval Require Import Tactic.
From Verif Require Import Base Fixed Math Spec SpecReal BaseLemmas FixedLemmas CLemmas InspectProofs MathProofs SqrtProofs NewtonProofs PowProofs RealLemmas
  StdProofs SinPoly SinProofs SinThms AtanProofs AsinProofs RealThms.
Open Scope R_scope.

Lemma bind_Ok' {A B} (v : A) (k : A -> res B) : bind (Ok v) k = k v. Proof. reflexivity. Qed.
Lemma atan_lip a b : Rabs (atan a - atan b) <= Rabs (a - b).
Proof.
  assert (G : forall x y, x < y -> 0 <= atan y - atan x <= y - x).
  { intros x y L. destruct (MVT_cor2 atan (fun t => / (1 + t²)) x y L) as (z & E & Hz).
    - intros t _. pose proof (derivable_pt_lim_atan t) as D. replace (/ (1 + t²)) with (/ (1 + t ^ 2)); [exact D|]. unfold Rsqr. f_equal. ring.
    - rewrite E. pose proof (Rle_0_sqr z) as S. assert (H : 0 < / (1 + z²) <= 1).
      { split; [apply Rinv_0_lt_compat; lra|]. replace 1 with (/ 1) at 2 by apply Rinv_1. apply Rinv_le_contravar; lra. }
      split; [apply Rmult_le_pos; lra|]. rewrite <- (Rmult_1_l (y - x)) at 2. apply Rmult_le_compat_r; lra. }
  destruct (Rtotal_order a b) as [L|[->|L]].
  - pose proof (G a b L). rewrite !Rabs_left1 by lra. lra.
  - replace (atan b - atan b) with 0 by ring. replace (b - b) with 0 by ring. lra.
  - pose proof (G b a L). rewrite !Rabs_pos_eq by lra. lra.
Qed.

Lemma ratio_close X s d : Rabs X <= 0.7 -> 0 < s -> Rabs (s * s - (1 - X * X)) <= d -> d <= 0.001 ->
  Rabs (X / s) <= 0.99 /\ Rabs (X / s - X / sqrt (1 - X²)) <= d.
Proof.
  intros HX Hs Hd D. pose proof (Rabs_pos (s * s - (1 - X * X))) as D0.
  assert (X2 : X * X <= 0.49). { apply Rabs_inv_le in HX. nra. }
  assert (Y2 : 0 <= X * X) by nra.
  change (X²) with (X * X). set (S := sqrt (1 - X * X)).
  assert (S2 : S * S = 1 - X * X) by (unfold S; apply sqrt_sqrt; lra).
  assert (S0 : 0 <= S) by apply sqrt_pos.
  assert (S1 : 0.714 <= S) by nra.
  apply Rabs_inv_le in Hd as Hd'.
  assert (s1 : 0.713 <= s) by nra.
  assert (P : 0 < s * S) by nra.
  split.
  - unfold Rdiv. rewrite Rabs_mult, Rabs_inv, (Rabs_pos_eq s) by lra. apply Rmult_le_reg_r with s; [lra|].
    rewrite Rmult_assoc, Rinv_l by lra. lra.
  - replace (X / s - X / S) with (X * ((1 - X * X - s * s) / ((s + S) * (s * S)))) by (rewrite <- S2; field; lra).
    rewrite Rabs_mult. assert (E : Rabs ((1 - X * X - s * s) / ((s + S) * (s * S))) <= d / 0.7).
    { unfold Rdiv. rewrite Rabs_mult, Rabs_inv. rewrite (Rabs_pos_eq ((s + S) * (s * S))) by nra. rewrite Rabs_minus_sym in Hd.
      replace (1 - X * X - s * s) with (1 - X * X - (s * s)) by ring.
      apply Rmult_le_compat; [apply Rabs_pos|left; apply Rinv_0_lt_compat; nra|exact Hd|].
      apply Rinv_le_contravar; [lra|]. assert (0.509 <= s * S) by nra. nra. }
    apply Rle_trans with (0.7 * (d / 0.7)); [|lra]. apply Rmult_le_compat; auto using Rabs_pos.
Qed.

Section GEN.
Variable c : cfg.
Hypothesis HS : std c.
Let f := cf c.
Let M := (2 ^ cf c)%Z.
Lemma Mr : 65536 <= IZR M. Proof. pose proof (std_M c HS) as H. fold M in H. apply IZR_le. lia. Qed.
Lemma asin_gen m s d : Rabs (rval f m) <= 0.7 -> fx_sqrt c (M - m * m / M) = Ok s -> valid c s = true -> (0 < s)%Z ->
  Rabs (rval f s * rval f s - rval f (M - m * m / M)) <= d -> d + ulp f <= 0.001 ->
  exists q, fx_asin c m = fx_atan c q /\ Rabs (rval f q) <= 1 /\ Rabs (rval f q - rval f m / sqrt (1 - (rval f m)²)) <= d + 2 * ulp f.
Proof.
  intros HX ES Vs Ps Hd D. pose proof Mr as R. pose proof (std_M c HS) as HM. fold M in HM.
  assert (U : ulp f = / IZR M) by reflexivity.
  assert (U0 : 0 < ulp f) by (rewrite U; apply Rinv_0_lt_compat; lra).
  assert (UM : ulp f * IZR M = 1) by (rewrite U; apply Rinv_l; lra).
  assert (RV : forall z, rval f z = IZR z * ulp f) by (intros; reflexivity).
  assert (Lm : (Z.abs m < M)%Z).
  { apply lt_IZR. rewrite abs_IZR. rewrite RV, Rabs_mult, (Rabs_pos_eq (ulp f)) in HX by lra. nra. }
  assert (Vm : valid c m = true) by (apply std_valid; auto; fold M; nia).
  assert (P : (0 <= m * m / M < M)%Z).
  { split; [apply Z.div_pos; nia|]. apply Z.div_lt_upper_bound; nia. }
  rewrite (asin_in c HS m Vm Lm). fold M.
  rewrite s_mul; auto; [|fold M; apply std_valid; auto; fold M; nia]. rewrite bind_Ok'. fold M.
  rewrite s_sub; auto; [|apply std_valid; auto; fold M; nia|apply std_valid; auto; fold M; nia|apply std_valid; auto; fold M; nia].
  rewrite bind_Ok', ES, bind_Ok'.
  set (q := Z.quot (m * M) s). exists q.
  (* the exact quotient *)
  assert (DD : Rabs (rval f s * rval f s - (1 - rval f m * rval f m)) <= d + ulp f).
  { pose proof (div_real (m * m) M ltac:(lia)) as [Q1 Q2]. rewrite (RV (M - m * m / M)%Z), minus_IZR in Hd. rewrite mult_IZR in Q1, Q2.
    set (k := IZR (m * m / M)) in *. rewrite (RV m).
    replace (IZR m * ulp f * (IZR m * ulp f)) with (IZR m * IZR m / IZR M * ulp f) by (rewrite U; field; lra).
    replace (1 - IZR m * IZR m / IZR M * ulp f) with ((IZR M - k) * ulp f - (IZR m * IZR m / IZR M - k) * ulp f)
      by (rewrite <- UM; ring).
    apply Rabs_inv_le in Hd. apply Rabs_le. assert (0 <= (IZR m * IZR m / IZR M - k) * ulp f <= ulp f) by nra. lra. }
  assert (PS : 0 < rval f s) by (rewrite RV; apply Rmult_lt_0_compat; [apply IZR_lt; auto|auto]).
  destruct (ratio_close _ _ _ HX PS DD D) as (C1 & C2).
  assert (QQ : Rabs (rval f q - rval f m / rval f s) < ulp f).
  { pose proof (quot_real (m * M) s ltac:(lia)) as K. fold q in K. rewrite mult_IZR in K. rewrite !RV.
    assert (0 < IZR s) by (apply IZR_lt; auto).
    replace (IZR q * ulp f - IZR m * ulp f / (IZR s * ulp f)) with ((IZR q - IZR m * IZR M / IZR s) * ulp f).
    - rewrite Rabs_mult, (Rabs_pos_eq (ulp f)) by lra. rewrite <- (Rmult_1_l (ulp f)) at 2. apply Rmult_lt_compat_r; auto.
    - rewrite Rmult_minus_distr_r. f_equal. replace (IZR m * IZR M / IZR s * ulp f) with (IZR m / IZR s * (ulp f * IZR M)) by (field; lra).
      rewrite UM. field. split; lra. }
  assert (Q1 : Rabs (rval f q) <= 1).
  { replace (rval f q) with (rval f q - rval f m / rval f s + rval f m / rval f s) by ring.
    eapply Rle_trans; [apply Rabs_triang|]. pose proof (Rle_trans _ _ _ (Rabs_pos _) Hd). lra. }
  split; [|split; [exact Q1|]].
  - rewrite s_div; auto; [lia|]. fold M. fold q. apply std_valid; auto. fold M.
    rewrite RV, Rabs_mult, (Rabs_pos_eq (ulp f)) in Q1 by lra. assert (Z.abs q <= M)%Z by (apply le_IZR; rewrite abs_IZR; nra). nia.
  - replace (rval f q - rval f m / sqrt (1 - (rval f m)²)) with (rval f q - rval f m / rval f s + (rval f m / rval f s - rval f m / sqrt (1 - (rval f m)²))) by ring.
    eapply Rle_trans; [apply Rabs_triang|]. lra.
Qed.
End GEN.

Lemma ulp16 : ulp 16 = / 65536. Proof. reflexivity. Qed.
Lemma ulp32 : ulp 32 = / 4294967296. Proof. reflexivity. Qed.
Lemma rv_sq f r d : rval f r * rval f r - rval f d = IZR (r * r - 2 ^ f * d) / (IZR (2 ^ f) * IZR (2 ^ f)) \/ IZR (2 ^ f) = 0.
Proof.
  destruct (Req_dec (IZR (2 ^ f)) 0) as [E|E]; [right; exact E|left]. unfold rval. rewrite minus_IZR, !mult_IZR. field. exact E.
Qed.
Lemma rlen x : -1 < x < 1 -> Rabs x <= 0.7 -> asin x = atan (x / sqrt (1 - x²)).
Proof. intros H _. apply asin_atan. exact H. Qed.
Lemma rin x : Rabs x <= 0.7 -> -1 < x < 1.
Proof. intros H. apply Rabs_inv_le in H. lra. Qed.

Lemma asin32_acc m : Rabs (rval 16 m) <= 0.7 ->
  exists r, fx_asin F32 m = Ok r /\ valid F32 r = true /\ Rabs (rval 16 r - asin (rval 16 m)) <= 5e-4.
Proof.
  intros HX.
  assert (Lm : (Z.abs m <= 45875)%Z).
  { apply Z.lt_succ_r. apply lt_IZR. rewrite abs_IZR. change (Z.succ 45875) with 45876%Z. unfold rval in HX. change (IZR (2 ^ 16)) with 65536 in HX.
    unfold Rdiv in HX. rewrite Rabs_mult, (Rabs_pos_eq (/ 65536)) in HX by lra. lra. }
  assert (P : (0 <= m * m / 65536 <= 32113)%Z).
  { split; [apply Z.div_pos; nia|]. apply Z.lt_succ_r. apply Z.div_lt_upper_bound; nia. }
  destruct (sqrt32_eq F32 (65536 - m * m / 65536)) as (s & E & B & Lo & Up); [split; reflexivity|apply valid32; lia|lia|].
  change (2 ^ 16)%Z with 65536%Z in *. set (d := (65536 - m * m / 65536)%Z) in *.
  assert (S1 : (0 < s <= 65536)%Z) by nia.
  destruct (asin_gen F32 f32 m s (2 / 65536)) as (q & Q1 & Q2 & Q3).
  - exact HX.
  - exact E.
  - apply valid32; lia.
  - lia.
  - cbn [cf F32]. change (2 ^ 16)%Z with 65536%Z. fold d. destruct (rv_sq 16 s d) as [K|K]; [|exfalso; change (IZR (2 ^ 16)) with 65536 in K; lra].
    rewrite K. change (2 ^ 16)%Z with 65536%Z. apply Rabs_le.
    assert (A1 : IZR (s * s - 65536 * d) <= 0) by (apply IZR_le; lia).
    assert (A2 : -131072 <= IZR (s * s - 65536 * d)) by (apply IZR_le; lia).
    split; lra.
  - cbn [cf F32]. rewrite ulp16. lra.
  - cbn [cf F32] in Q2, Q3. rewrite ulp16 in Q3. destruct (atan32_thm q Q2) as (r & R1 & R2 & R3).
    exists r. rewrite Q1. split; [exact R1|]. split; [exact R2|]. rewrite asin_atan by (apply rin; exact HX).
    replace (rval 16 r - atan (rval 16 m / sqrt (1 - (rval 16 m)²))) with
      (rval 16 r - atan (rval 16 q) + (atan (rval 16 q) - atan (rval 16 m / sqrt (1 - (rval 16 m)²)))) by ring.
    eapply Rle_trans; [apply Rabs_triang|]. pose proof (atan_lip (rval 16 q) (rval 16 m / sqrt (1 - (rval 16 m)²))). lra.
Qed.

Lemma asin64_acc m : Rabs (rval 32 m) <= 0.7 ->
  exists r, fx_asin F64 m = Ok r /\ valid F64 r = true /\ Rabs (rval 32 r - asin (rval 32 m)) <= 3.5e-4.
Proof.
  intros HX.
  assert (Lm : (Z.abs m <= 3006477107)%Z).
  { apply Z.lt_succ_r. apply lt_IZR. rewrite abs_IZR. change (Z.succ 3006477107) with 3006477108%Z. unfold rval in HX. change (IZR (2 ^ 32)) with 4294967296 in HX.
    unfold Rdiv in HX. rewrite Rabs_mult, (Rabs_pos_eq (/ 4294967296)) in HX by lra. lra. }
  assert (P : (0 <= m * m / 4294967296 <= 2104533976)%Z).
  { split; [apply Z.div_pos; nia|]. apply Z.lt_succ_r. apply Z.div_lt_upper_bound; nia. }
  set (d := (4294967296 - m * m / 4294967296)%Z) in *.
  assert (Hd : (0 < d < sqrt64_limit)%Z) by (unfold d; unfold sqrt64_limit; lia).
  destruct (sqrt64_main d Hd) as (s & E & R & F & _ & _ & _). apply far_sq in F. unfold eps64 in F. change (2 ^ 32)%Z with 4294967296%Z in *.
  assert (S1 : (0 < s <= 2 * 4294967296)%Z) by (unfold d in *; nia).
  destruct (asin_gen F64 (or_intror eq_refl) m s (5 / 65536)) as (q & Q1 & Q2 & Q3).
  - exact HX.
  - exact E.
  - apply valid64; lia.
  - lia.
  - cbn [cf F64]. change (2 ^ 32)%Z with 4294967296%Z. fold d. destruct (rv_sq 32 s d) as [K|K]; [|exfalso; change (IZR (2 ^ 32)) with 4294967296 in K; lra].
    rewrite K. change (2 ^ 32)%Z with 4294967296%Z. apply Rabs_le.
    assert (A1 : IZR (s * s - 4294967296 * d) <= 1407374883553280) by (apply IZR_le; lia).
    assert (A2 : -1407374883553280 <= IZR (s * s - 4294967296 * d)) by (apply IZR_le; lia).
    split; lra.
  - cbn [cf F64]. rewrite ulp32. lra.
  - cbn [cf F64] in Q2, Q3. rewrite ulp32 in Q3. destruct (atan64_thm q Q2) as (r & R1 & R2 & R3).
    exists r. rewrite Q1. split; [exact R1|]. split; [exact R2|]. rewrite asin_atan by (apply rin; exact HX).
    replace (rval 32 r - atan (rval 32 m / sqrt (1 - (rval 32 m)²))) with
      (rval 32 r - atan (rval 32 q) + (atan (rval 32 q) - atan (rval 32 m / sqrt (1 - (rval 32 m)²)))) by ring.
    eapply Rle_trans; [apply Rabs_triang|]. pose proof (atan_lip (rval 32 q) (rval 32 m / sqrt (1 - (rval 32 m)²))). lra.
Qed.

Lemma acos32_acc m : Rabs (rval 16 m) <= 0.7 ->
  exists r, fx_acos F32 m = Ok r /\ valid F32 r = true /\ Rabs (rval 16 r - acos (rval 16 m)) <= 5.2e-4.
Proof.
  intros HX. rewrite acos_asin by (apply rin in HX; lra).
  assert (HP : Rabs (102943 / 65536 - PI / 2) <= 1.2e-5) by (interval with (i_prec 60)).
  destruct (Z.eq_dec m 0) as [->|N].
  { exists 102943%Z. split; [vm_compute; reflexivity|]. split; [reflexivity|]. unfold rval. change (IZR (2 ^ 16)) with 65536.
    replace (0 / 65536) with 0 by field. rewrite asin_0. replace (PI / 2 - 0) with (PI / 2) by ring. lra. }
  destruct (asin32_acc m HX) as (a & E & V & A).
  assert (Lm : (Z.abs m < 65536)%Z).
  { apply lt_IZR. rewrite abs_IZR. unfold rval in HX. change (IZR (2 ^ 16)) with 65536 in HX.
    unfold Rdiv in HX. rewrite Rabs_mult, (Rabs_pos_eq (/ 65536)) in HX by lra. lra. }
  assert (B : Rabs (asin (rval 16 m)) <= 2).
  { pose proof (asin_bound (rval 16 m)). pose proof PI_4. apply Rabs_le. lra. }
  assert (La : (Z.abs a <= 262144)%Z).
  { apply le_IZR. rewrite abs_IZR. apply Rabs_inv_le in A. apply Rabs_inv_le in B. set (y := asin (rval 16 m)) in *. unfold rval in A. change (IZR (2 ^ 16)) with 65536 in A. apply Rabs_le. lra. }
  rewrite (acos_in F32 f32 m a) by (auto; apply valid32; lia).
  change (pi_v F32) with (@Ok Z 205887%Z). rewrite bind_Ok'. change (fx_div_int F32 int32 205887%Z 2%Z) with (@Ok Z 102943%Z). rewrite bind_Ok'.
  rewrite (s_sub F32 f32) by (auto; apply valid32; lia). exists (102943 - a)%Z. split; [reflexivity|]. split; [apply valid32; lia|].
  unfold rval at 1. change (IZR (2 ^ 16)) with 65536. rewrite minus_IZR.
  unfold rval in A at 1. change (IZR (2 ^ 16)) with 65536 in A. set (y := asin (rval 16 m)) in *.
  replace ((102943 - IZR a) / 65536 - (PI / 2 - y)) with (102943 / 65536 - PI / 2 - (IZR a / 65536 - y)) by field.
  apply Rabs_inv_le in HP. apply Rabs_inv_le in A. apply Rabs_le. lra.
Qed.
Lemma acos64_acc m : Rabs (rval 32 m) <= 0.7 ->
  exists r, fx_acos F64 m = Ok r /\ valid F64 r = true /\ Rabs (rval 32 r - acos (rval 32 m)) <= 3.6e-4.
Proof.
  intros HX. rewrite acos_asin by (apply rin in HX; lra).
  assert (HP : Rabs (6746518852 / 4294967296 - PI / 2) <= 1e-9) by (interval with (i_prec 60)).
  destruct (Z.eq_dec m 0) as [->|N].
  { exists 6746518852%Z. split; [vm_compute; reflexivity|]. split; [reflexivity|]. unfold rval. change (IZR (2 ^ 32)) with 4294967296.
    replace (0 / 4294967296) with 0 by field. rewrite asin_0. replace (PI / 2 - 0) with (PI / 2) by ring. lra. }
  destruct (asin64_acc m HX) as (a & E & V & A).
  assert (Lm : (Z.abs m < 4294967296)%Z).
  { apply lt_IZR. rewrite abs_IZR. unfold rval in HX. change (IZR (2 ^ 32)) with 4294967296 in HX.
    unfold Rdiv in HX. rewrite Rabs_mult, (Rabs_pos_eq (/ 4294967296)) in HX by lra. lra. }
  assert (B : Rabs (asin (rval 32 m)) <= 2).
  { pose proof (asin_bound (rval 32 m)). pose proof PI_4. apply Rabs_le. lra. }
  assert (La : (Z.abs a <= 17179869184)%Z).
  { apply le_IZR. rewrite abs_IZR. apply Rabs_inv_le in A. apply Rabs_inv_le in B. set (y := asin (rval 32 m)) in *. unfold rval in A. change (IZR (2 ^ 32)) with 4294967296 in A. apply Rabs_le. lra. }
  rewrite (acos_in F64 (or_intror eq_refl) m a) by (auto; apply valid64; lia).
  change (pi_v F64) with (@Ok Z 13493037704%Z). rewrite bind_Ok'. change (fx_div_int F64 int32 13493037704%Z 2%Z) with (@Ok Z 6746518852%Z). rewrite bind_Ok'.
  rewrite (s_sub F64 (or_intror eq_refl)) by (auto; apply valid64; lia). exists (6746518852 - a)%Z. split; [reflexivity|]. split; [apply valid64; lia|].
  unfold rval at 1. change (IZR (2 ^ 32)) with 4294967296. rewrite minus_IZR.
  unfold rval in A at 1. change (IZR (2 ^ 32)) with 4294967296 in A. set (y := asin (rval 32 m)) in *.
  replace ((6746518852 - IZR a) / 4294967296 - (PI / 2 - y)) with (6746518852 / 4294967296 - PI / 2 - (IZR a / 4294967296 - y)) by field.
  apply Rabs_inv_le in HP. apply Rabs_inv_le in A. apply Rabs_le. lra.
Qed.
