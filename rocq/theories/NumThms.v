(** Constants and angle conversion: proofs. *)
From Coq Require Import ZArith Reals Lia Lra Psatz Bool.
From Interval Require Import Tactic.
From Verif Require Import Base Fixed Math Numbers Spec SpecReal BaseLemmas FixedLemmas CLemmas MathProofs PowProofs RealLemmas StdProofs
  SinPoly SinThms RealThms ExpProofs.
Open Scope R_scope.

(** [m] is the real [x] truncated to [f] bits *)
Definition trunc_const (f : Z) (r : res Z) (x : R) : Prop := exists m, r = Ok m /\ rval f m <= x < rval f m + ulp f.
Ltac tconst := eexists; split; [vm_compute; reflexivity|]; unfold rval, ulp;
  change (IZR (2 ^ 16)) with 65536; change (IZR (2 ^ 32)) with 4294967296; split; interval with (i_prec 80).
Lemma constants32 :
  trunc_const 16 (pi_v F32) PI /\ trunc_const 16 (e_v F32) (exp 1) /\ trunc_const 16 (ln2_v F32) (ln 2) /\ trunc_const 16 (ln10_v F32) (ln 10) /\
  trunc_const 16 (log2e_v F32) (/ ln 2) /\ trunc_const 16 (log10e_v F32) (/ ln 10) /\ trunc_const 16 (inv_pi_v F32) (/ PI) /\
  trunc_const 16 (inv_sqrtpi_v F32) (/ sqrt PI) /\ trunc_const 16 (sqrt2_v F32) (sqrt 2) /\ trunc_const 16 (sqrt3_v F32) (sqrt 3) /\
  trunc_const 16 (inv_sqrt3_v F32) (/ sqrt 3) /\ trunc_const 16 (phi_v F32) ((1 + sqrt 5) / 2) /\
  trunc_const 16 (fx_pi F32) PI /\ trunc_const 16 (fx_e F32) (exp 1) /\
  trunc_const 16 (fx_pi_2 F32) (PI / 2) /\ trunc_const 16 (fx_pi_4 F32) (PI / 4) /\ trunc_const 16 (fx_double_pi F32) (2 * PI).
Proof. repeat split; tconst. Qed.
Lemma constants64 :
  trunc_const 32 (pi_v F64) PI /\ trunc_const 32 (e_v F64) (exp 1) /\ trunc_const 32 (ln2_v F64) (ln 2) /\ trunc_const 32 (ln10_v F64) (ln 10) /\
  trunc_const 32 (log2e_v F64) (/ ln 2) /\ trunc_const 32 (log10e_v F64) (/ ln 10) /\ trunc_const 32 (inv_pi_v F64) (/ PI) /\
  trunc_const 32 (inv_sqrtpi_v F64) (/ sqrt PI) /\ trunc_const 32 (sqrt2_v F64) (sqrt 2) /\ trunc_const 32 (sqrt3_v F64) (sqrt 3) /\
  trunc_const 32 (inv_sqrt3_v F64) (/ sqrt 3) /\ trunc_const 32 (phi_v F64) ((1 + sqrt 5) / 2) /\
  trunc_const 32 (fx_pi F64) PI /\ trunc_const 32 (fx_e F64) (exp 1) /\
  trunc_const 32 (fx_pi_2 F64) (PI / 2) /\ trunc_const 32 (fx_pi_4 F64) (PI / 4) /\ trunc_const 32 (fx_double_pi F64) (2 * PI).
Proof. repeat split; tconst. Qed.

(** * degrees and radians *)
Lemma quot_r f a b : (0 <= f)%Z -> b <> 0%Z -> Rabs (rval f (Z.quot (a * 2 ^ f) b) - rval f a / rval f b) < ulp f.
Proof.
  intros F N. pose proof (quot_real (a * 2 ^ f) b N) as Q. pose proof (pow2_gt0 f F) as P. rewrite mult_IZR in Q.
  unfold rval, ulp. set (RM := IZR (2 ^ f)) in *. set (q := IZR (Z.quot (a * 2 ^ f) b)) in *.
  assert (NB : IZR b <> 0) by (apply not_0_IZR; auto).
  replace (q / RM - IZR a / RM / (IZR b / RM)) with ((q - IZR a * RM / IZR b) * / RM) by (field; split; lra).
  assert (0 < / RM) by (apply Rinv_0_lt_compat; auto). rewrite Rabs_mult, (Rabs_pos_eq (/ RM)) by lra. nra.
Qed.
Lemma degrees_gen c m P del K : std c -> pi_v c = Ok P -> valid c m = true ->
  (2 * 2 ^ cf c < P < 4 * 2 ^ cf c)%Z -> Rabs (180 * / rval (cf c) P - 180 / PI) <= del * (180 / PI) -> 0 <= del ->
  Rabs (rval (cf c) m * (180 / PI)) <= K -> 180 * ulp (cf c) + del * K + K < IZR (2 ^ cf c) / 2 ->
  exists r, fx_degrees c m = Ok r /\ valid c r = true /\
  Rabs (rval (cf c) r - rval (cf c) m * (180 / PI)) <= 180 * ulp (cf c) + del * Rabs (rval (cf c) m * (180 / PI)).
Proof.
  intros HS HP V RP HD D0 HK HB. pose proof (std_M c HS) as HM. pose proof (std_f0 c HS) as F0. set (f := cf c) in *.
  pose proof (pow2_gt0 f F0) as RM.
  set (q := Z.quot (m * 2 ^ f) P).
  assert (QA : (Z.abs q <= Z.abs m)%Z).
  { unfold q. rewrite <- Z.quot_abs by lia. rewrite Z.abs_mul, (Z.abs_eq (2 ^ f)), (Z.abs_eq P) by lia.
    apply Z.quot_le_upper_bound; nia. }
  pose proof (quot_r f m P F0 ltac:(lia)) as QR. fold q in QR.
  assert (PIP : 0 < PI) by (assert (3 < PI) by interval with (i_prec 60); lra).
  assert (ER : rval f (q * 180) = rval f q * 180) by (unfold rval; rewrite mult_IZR; field; lra).
  assert (A : Rabs (rval f (q * 180) - rval f m * (180 / PI)) <= 180 * ulp f + del * Rabs (rval f m * (180 / PI))).
  { rewrite ER. replace (rval f q * 180 - rval f m * (180 / PI)) with
      (180 * (rval f q - rval f m / rval f P) + rval f m * (180 * / rval f P - 180 / PI)) by (unfold Rdiv; ring).
    eapply Rle_trans; [apply Rabs_triang|]. rewrite !Rabs_mult. rewrite (Rabs_pos_eq 180) by lra.
    rewrite (Rabs_pos_eq (180 / PI)) by (apply Rmult_le_pos; [lra|left; apply Rinv_0_lt_compat; auto]).
    pose proof (Rabs_pos (rval f m)). assert (Rabs (rval f m) * Rabs (180 * / rval f P - 180 / PI) <= Rabs (rval f m) * (del * (180 / PI))) by (apply Rmult_le_compat_l; auto).
    nra. }
  assert (VR : valid c (q * 180) = true).
  { apply (std_valid c HS). fold f.
    assert (B : Rabs (rval f (q * 180)) < IZR (2 ^ f) / 2).
    { apply Rabs_inv_le in HK as HK'. apply Rabs_inv_le in A. pose proof (Rabs_pos (rval f m * (180 / PI))). apply Rabs_def1; nra. }
    rewrite rval_abs in B. unfold rval in B.
    assert (B2 : IZR (2 * Z.abs (q * 180)) < IZR (2 ^ f * 2 ^ f)).
    { rewrite !mult_IZR. apply Rmult_lt_reg_r with (/ IZR (2 ^ f) / 2); [apply Rdiv_lt_0_compat; [apply Rinv_0_lt_compat; auto|lra]|].
      replace (IZR (2 ^ f) * IZR (2 ^ f) * (/ IZR (2 ^ f) / 2)) with (IZR (2 ^ f) / 2) by (field; lra).
      replace (2 * IZR (Z.abs (q * 180)) * (/ IZR (2 ^ f) / 2)) with (IZR (Z.abs (q * 180)) / IZR (2 ^ f)) by (field; lra). exact B. }
    apply lt_IZR in B2. lia. }
  assert (VP : valid c P = true) by (apply (std_valid c HS); fold f; nia).
  assert (VQ : valid c q = true).
  { pose proof (proj1 (std_valid c HS m) V) as B. fold f in B. apply (std_valid c HS). fold f.
    assert (QS : (0 <= q * m)%Z).
    { unfold q. destruct (Z.le_gt_cases 0 m).
      - apply Z.mul_nonneg_nonneg; auto. apply Z.quot_pos; nia.
      - pose proof (Z.quot_pos (- m * 2 ^ f) P ltac:(nia) ltac:(lia)) as QQ. rewrite Z.mul_opp_l, Z.quot_opp_l in QQ by lia. nia. }
    nia. }
  assert (V180 : valid c (180 * 2 ^ f) = true) by (apply (std_valid c HS); fold f; nia).
  exists (q * 180)%Z. split; [|split; auto].
  unfold fx_degrees. rewrite HP. cbn [bind]. rewrite s_int by auto. cbn [bind]. rewrite s_div; auto; [|lia].
  cbn [bind]. fold f. fold q.
  assert (EQ : (q * (180 * 2 ^ f) / 2 ^ f)%Z = (q * 180)%Z) by (rewrite Z.mul_assoc; apply Z.div_mul; lia).
  rewrite s_mul; auto; fold f; rewrite EQ; auto.
Qed.
Lemma degrees32 m : valid F32 m = true -> Rabs (rval 16 m * (180 / PI)) <= 32760 ->
  exists r, fx_degrees F32 m = Ok r /\ valid F32 r = true /\
  Rabs (rval 16 r - rval 16 m * (180 / PI)) <= 180 * ulp 16 + 2.1e-6 * Rabs (rval 16 m * (180 / PI)).
Proof.
  intros V K. apply (degrees_gen F32 m 205887 2.1e-6 32760); auto.
  - apply s32.
  - cbn [cf F32]. lia.
  - cbn [cf F32]. unfold rval. change (IZR (2 ^ 16)) with 65536. interval with (i_prec 60).
  - lra.
  - cbn [cf F32]. unfold ulp. change (IZR (2 ^ 16)) with 65536. lra.
Qed.
Lemma degrees64 m : valid F64 m = true -> Rabs (rval 32 m * (180 / PI)) <= 2147483647 ->
  exists r, fx_degrees F64 m = Ok r /\ valid F64 r = true /\
  Rabs (rval 32 r - rval 32 m * (180 / PI)) <= 180 * ulp 32 + 4e-11 * Rabs (rval 32 m * (180 / PI)).
Proof.
  intros V K. apply (degrees_gen F64 m 13493037704 4e-11 2147483647); auto.
  - apply s64.
  - cbn [cf F64]. lia.
  - cbn [cf F64]. unfold rval. change (IZR (2 ^ 32)) with 4294967296. interval with (i_prec 80).
  - lra.
  - cbn [cf F64]. unfold ulp. change (IZR (2 ^ 32)) with 4294967296. lra.
Qed.

Lemma radians_gen c m P del : std c -> pi_v c = Ok P -> valid c m = true ->
  (2 * 2 ^ cf c < P < 4 * 2 ^ cf c)%Z -> Rabs (rval (cf c) P - PI) <= del * PI -> 0 <= del ->
  exists r, fx_radians c m = Ok r /\ valid c r = true /\
  Rabs (rval (cf c) r - rval (cf c) m * (PI / 180)) <= 5 * ulp (cf c) + del * Rabs (rval (cf c) m * (PI / 180)).
Proof.
  intros HS HP V RP HD D0. pose proof (std_M c HS) as HM. pose proof (std_f0 c HS) as F0. set (f := cf c) in *.
  pose proof (pow2_gt0 f F0) as RM.
  assert (PIP : 0 < PI) by (assert (3 < PI) by interval with (i_prec 60); lra).
  set (q := Z.quot (m * 2 ^ f) (180 * 2 ^ f)).
  pose proof (proj1 (std_valid c HS m) V) as B. fold f in B.
  assert (EQ : q = Z.quot m 180) by (unfold q; apply Z.quot_mul_cancel_r; lia).
  assert (QA : (Z.abs q * 180 <= Z.abs m)%Z).
  { rewrite EQ. rewrite <- Z.quot_abs by lia. change (Z.abs 180) with 180%Z. rewrite Z.mul_comm. apply Z.mul_quot_le; lia. }
  assert (VQ : valid c q = true) by (apply (std_valid c HS); fold f; lia).
  assert (VP : valid c P = true) by (apply (std_valid c HS); fold f; nia).
  assert (V180 : valid c (180 * 2 ^ f) = true) by (apply (std_valid c HS); fold f; nia).
  pose proof (quot_r f m (180 * 2 ^ f) F0 ltac:(lia)) as QR. fold q in QR.
  assert (E180 : rval f (180 * 2 ^ f) = 180) by (unfold rval; rewrite mult_IZR; field; lra). rewrite E180 in QR.
  set (r := (q * P / 2 ^ f)%Z).
  assert (RB : (- (2 * 2 ^ f * 2 ^ f) <= 90 * r <= 2 * 2 ^ f * 2 ^ f)%Z).
  { assert (LB : (- (Z.abs q * 4) <= r <= Z.abs q * 4)%Z).
    { unfold r. split; [apply Z.div_le_lower_bound; nia|apply Z.div_le_upper_bound; nia]. }
    nia. }
  assert (VR : valid c r = true) by (apply (std_valid c HS); fold f; nia).
  exists r. split; [|split; auto].
  - unfold fx_radians. rewrite HP. cbn [bind]. rewrite s_int by auto. cbn [bind]. rewrite s_div; auto; [|fold f; lia].
    cbn [bind]. fold f. fold q. rewrite s_mul; auto.
  - pose proof (fm_r f q P (proj1 HM)) as FR. unfold fm in FR. fold r in FR.
    set (vq := rval f q) in *. set (x := rval f m) in *. set (vP := rval f P) in *. set (vr := rval f r) in *.
    assert (VPB : 0 <= vP <= 4).
    { unfold vP, rval. split; [apply Rmult_le_pos; [apply IZR_le; lia|left; apply Rinv_0_lt_compat; auto]|].
      apply Rmult_le_reg_r with (IZR (2 ^ f)); auto. unfold Rdiv. rewrite Rmult_assoc, Rinv_l, Rmult_1_r by lra. rewrite <- mult_IZR. apply IZR_le. lia. }
    replace (vr - x * (PI / 180)) with ((vr - vq * vP) + (vq - x / 180) * vP + x / 180 * (vP - PI)) by field.
    assert (T1 : Rabs (vr - vq * vP) <= ulp f) by (apply Rabs_le; lra).
    assert (T2 : Rabs ((vq - x / 180) * vP) <= 4 * ulp f).
    { rewrite Rabs_mult, (Rabs_pos_eq vP) by lra. pose proof (Rabs_pos (vq - x / 180)). nra. }
    assert (T3 : Rabs (x / 180 * (vP - PI)) <= del * Rabs (x * (PI / 180))).
    { rewrite !Rabs_mult. replace (x / 180) with (x * / 180) by reflexivity. rewrite Rabs_mult, (Rabs_pos_eq (/ 180)) by lra.
      rewrite (Rabs_pos_eq (PI / 180)) by lra. pose proof (Rabs_pos x).
      assert (Rabs x * / 180 * Rabs (vP - PI) <= Rabs x * / 180 * (del * PI)) by (apply Rmult_le_compat_l; [lra|auto]). lra. }
    pose proof (Rabs_triang (vr - vq * vP + (vq - x / 180) * vP) (x / 180 * (vP - PI))).
    pose proof (Rabs_triang (vr - vq * vP) ((vq - x / 180) * vP)). lra.
Qed.
Lemma radians32 m : valid F32 m = true ->
  exists r, fx_radians F32 m = Ok r /\ valid F32 r = true /\
  Rabs (rval 16 r - rval 16 m * (PI / 180)) <= 5 * ulp 16 + 2.1e-6 * Rabs (rval 16 m * (PI / 180)).
Proof.
  intros V. apply (radians_gen F32 m 205887); auto; try lra.
  - apply s32.
  - cbn [cf F32]. lia.
  - cbn [cf F32]. unfold rval. change (IZR (2 ^ 16)) with 65536. interval with (i_prec 60).
Qed.
Lemma radians64 m : valid F64 m = true ->
  exists r, fx_radians F64 m = Ok r /\ valid F64 r = true /\
  Rabs (rval 32 r - rval 32 m * (PI / 180)) <= 5 * ulp 32 + 4e-11 * Rabs (rval 32 m * (PI / 180)).
Proof.
  intros V. apply (radians_gen F64 m 13493037704); auto; try lra.
  - apply s64.
  - cbn [cf F64]. lia.
  - cbn [cf F64]. unfold rval. change (IZR (2 ^ 32)) with 4294967296. interval with (i_prec 80).
Qed.
