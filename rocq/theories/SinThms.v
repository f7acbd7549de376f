(** sin, cos and tan for the two predefined types. *)
From Coq Require Import ZArith Reals Lia Lra Psatz Bool.
From Interval Require Import Tactic.
From Verif Require Import Base Fixed Math Spec SpecReal BaseLemmas FixedLemmas CLemmas MathProofs PowProofs RealLemmas StdProofs SinPoly SinProofs.
Open Scope R_scope.

Lemma s32 : std F32. Proof. left; reflexivity. Qed.
Lemma s64 : std F64. Proof. right; reflexivity. Qed.

Definition sin32 : Z -> Z := sin_z (2 ^ 16) 205887 102943 411774 9 26950 8085 3850 2245.
Definition sin64 : Z -> Z := sin_z (2 ^ 32) 13493037704 6746518852 26986075409 644245 1766234505 529870351 252319215 147186208.

Ltac zside := first [reflexivity | exact s32 | exact s64 | cbn [cf F32 F64]; change (2 ^ 16)%Z with 65536%Z; change (2 ^ 32)%Z with 4294967296%Z; lia].

Lemma sin32_eq m : valid F32 m = true -> m <> (-2147483648)%Z -> fx_sin F32 m = Ok (sin32 m).
Proof. intros V N. apply (sin_eq F32); auto; zside. Qed.
Lemma sin64_eq m : valid F64 m = true -> m <> (-9223372036854775808)%Z -> fx_sin F64 m = Ok (sin64 m).
Proof. intros V N. apply (sin_eq F64); auto; zside. Qed.

Ltac rside := cbn [cf F32 F64]; change (2 ^ 16)%Z with 65536%Z; change (2 ^ 32)%Z with 4294967296%Z;
  first [split; interval with (i_prec 100) | interval with (i_prec 100) | lra].

Lemma sin32_acc m : (9 <= Z.abs m)%Z ->
  Rabs (rval 16 (sin32 m) - sin (rval 16 m)) <= (12 + 0.14 * Rabs (rval 16 m)) * ulp 16.
Proof.
  intros N. pose proof (sin_acc F32 s32 205887 102943 411774 9 26950 8085 3850 2245) as A.
  specialize (A ltac:(zside) ltac:(zside) ltac:(zside) ltac:(zside) ltac:(zside) ltac:(zside) ltac:(zside) ltac:(zside) 1.81 0.8323).
  specialize (A ltac:(rside) ltac:(rside) ltac:(rside) ltac:(rside) ltac:(rside) ltac:(rside) ltac:(rside) ltac:(rside) m N).
  cbn [cf F32] in A. fold (rval 16 m) in A. fold (rval 16 (sin32 m)) in A. fold (ulp 16) in A.
  eapply Rle_trans; [exact A|]. assert (U : ulp 16 = / 65536) by reflexivity. rewrite U.
  pose proof (Rabs_pos (rval 16 m)). assert (PI / 2 <= 1.571) by interval with (i_prec 60). lra.
Qed.
Lemma sin64_acc m : (644245 <= Z.abs m)%Z ->
  Rabs (rval 32 (sin64 m) - sin (rval 32 m)) <= 3.71e-6 + 0.0074 * Rabs (rval 32 m) * ulp 32.
Proof.
  intros N. pose proof (sin_acc F64 s64 13493037704 6746518852 26986075409 644245 1766234505 529870351 252319215 147186208) as A.
  specialize (A ltac:(zside) ltac:(zside) ltac:(zside) ltac:(zside) ltac:(zside) ltac:(zside) ltac:(zside) ltac:(zside) 0.665 0.0441).
  specialize (A ltac:(rside) ltac:(rside) ltac:(rside) ltac:(rside) ltac:(rside) ltac:(rside) ltac:(rside) ltac:(rside) m N).
  cbn [cf F64] in A. fold (rval 32 m) in A. fold (rval 32 (sin64 m)) in A. fold (ulp 32) in A.
  eapply Rle_trans; [exact A|]. assert (U : ulp 32 = / 4294967296) by reflexivity. rewrite U.
  pose proof (Rabs_pos (rval 32 m)). assert (PI / 2 <= 1.571) by interval with (i_prec 60). lra.
Qed.
Lemma sin32_tiny m : (Z.abs m < 9)%Z -> (sin32 m = m \/ sin32 m = (- m)%Z) /\ ((0 <= m)%Z -> sin32 m = m).
Proof. intros N. apply (sin_tiny F32); auto; zside. Qed.
Lemma sin64_tiny m : (Z.abs m < 644245)%Z -> (sin64 m = m \/ sin64 m = (- m)%Z) /\ ((0 <= m)%Z -> sin64 m = m).
Proof. intros N. apply (sin_tiny F64); auto; zside. Qed.
Lemma sin32_range m : Rabs (rval 16 (sin32 m)) <= 1 + 8 * ulp 16.
Proof.
  pose proof (sin_range F32 s32 205887 102943 411774 9 26950 8085 3850 2245) as A.
  specialize (A ltac:(zside) ltac:(zside) ltac:(zside) ltac:(zside) ltac:(zside) ltac:(zside) ltac:(zside) ltac:(zside) ltac:(zside)).
  specialize (A ltac:(rside) ltac:(rside) ltac:(rside) ltac:(rside) ltac:(rside) m).
  change (Rabs (rval 16 (sin32 m)) <= 1 + 3.7e-6 + 7.3 * ulp 16) in A.
  assert (U : ulp 16 = / 65536) by reflexivity. rewrite U in *. lra.
Qed.
Lemma sin64_range m : Rabs (rval 32 (sin64 m)) <= 1 + 3.71e-6.
Proof.
  pose proof (sin_range F64 s64 13493037704 6746518852 26986075409 644245 1766234505 529870351 252319215 147186208) as A.
  specialize (A ltac:(zside) ltac:(zside) ltac:(zside) ltac:(zside) ltac:(zside) ltac:(zside) ltac:(zside) ltac:(zside) ltac:(zside)).
  specialize (A ltac:(rside) ltac:(rside) ltac:(rside) ltac:(rside) ltac:(rside) m).
  change (Rabs (rval 32 (sin64 m)) <= 1 + 3.7e-6 + 7.3 * ulp 32) in A.
  assert (U : ulp 32 = / 4294967296) by reflexivity. rewrite U in *. lra.
Qed.

Lemma rval_opp f m : rval f (- m) = - rval f m.
Proof. unfold rval, Rdiv. rewrite opp_IZR. ring. Qed.
Lemma rval_abs f m : Rabs (rval f m) = rval f (Z.abs m).
Proof.
  unfold rval, Rdiv. rewrite Rabs_mult, abs_IZR, Rabs_inv. f_equal. f_equal. apply Rabs_pos_eq, IZR_le, Z.pow_nonneg. lia.
Qed.
Lemma ulp_nn f : 0 <= ulp f.
Proof.
  unfold ulp. assert (0 <= IZR (2 ^ f)) by (apply IZR_le, Z.pow_nonneg; lia). destruct H as [H|H].
  - left. apply Rinv_0_lt_compat; auto.
  - rewrite <- H. rewrite Rinv_0. lra.
Qed.
(** whatever the branch *)
Lemma sin32_all m :
  Rabs (rval 16 (sin32 m) - sin (rval 16 m)) <= (16 + 0.14 * Rabs (rval 16 m)) * ulp 16.
Proof.
  pose proof (Rabs_pos (rval 16 m)) as RP. assert (U : ulp 16 = / 65536) by reflexivity.
  destruct (Z.lt_ge_cases (Z.abs m) 9) as [L|G].
  - destruct (sin32_tiny m L) as [E _]. pose proof (sin_abs_le (rval 16 m)) as SA.
    assert (RA : Rabs (rval 16 m) <= 8 * ulp 16).
    { rewrite rval_abs, U. unfold rval. change (IZR (2 ^ 16)) with 65536. assert (IZR (Z.abs m) <= 8) by (apply IZR_le; lia). lra. }
    assert (RS : Rabs (rval 16 (sin32 m)) = Rabs (rval 16 m)) by (destruct E as [-> | ->]; [auto|rewrite rval_opp, Rabs_Ropp; auto]).
    pose proof (Rabs_triang (rval 16 (sin32 m)) (- sin (rval 16 m))) as TR. rewrite Rabs_Ropp in TR. unfold Rminus. rewrite U in *. lra.
  - eapply Rle_trans; [apply sin32_acc; auto|]. rewrite U. lra.
Qed.
Lemma sin32_nonneg m : (0 <= m)%Z ->
  Rabs (rval 16 (sin32 m) - sin (rval 16 m)) <= (12 + 0.14 * Rabs (rval 16 m)) * ulp 16.
Proof.
  intros P. destruct (Z.lt_ge_cases (Z.abs m) 9) as [L|G]; [|apply sin32_acc; auto].
  destruct (sin32_tiny m L) as [_ E]. rewrite (E P). pose proof (sin_abs_le (rval 16 m)) as SA.
  pose proof (Rabs_pos (rval 16 m)) as RP. assert (U : ulp 16 = / 65536) by reflexivity.
  assert (RA : 0 <= rval 16 m <= 8 * ulp 16).
  { rewrite U. unfold rval. change (IZR (2 ^ 16)) with 65536. assert (0 <= IZR m <= 8) by (split; apply IZR_le; lia). lra. }
  rewrite (Rabs_pos_eq (rval 16 m)) in * by lra. apply Rabs_inv_le in SA.
  assert (0 <= sin (rval 16 m)) by (apply sin_ge_0; [lra|]; assert (3 < PI) by interval with (i_prec 60); lra).
  apply Rabs_le. rewrite U in *. lra.
Qed.
Lemma sin64_nonneg m : (0 <= m)%Z ->
  Rabs (rval 32 (sin64 m) - sin (rval 32 m)) <= 3.71e-6 + 0.0074 * Rabs (rval 32 m) * ulp 32.
Proof.
  intros P. destruct (Z.lt_ge_cases (Z.abs m) 644245) as [L|G]; [|apply sin64_acc; auto].
  destruct (sin64_tiny m L) as [_ E]. rewrite (E P).
  assert (RA : 0 <= rval 32 m <= 0.00016).
  { unfold rval. change (IZR (2 ^ 32)) with 4294967296. assert (0 <= IZR m <= 644245) by (split; apply IZR_le; lia). lra. }
  assert (U : 0 <= ulp 32) by apply ulp_nn. pose proof (Rabs_pos (rval 32 m)).
  assert (0 <= Rabs (rval 32 m) * ulp 32) by nra.
  assert (Rabs (rval 32 m - sin (rval 32 m)) <= 1e-9) by interval with (i_taylor (rval 32 m), i_prec 60). lra.
Qed.
Lemma sin64_all m :
  Rabs (rval 32 (sin64 m) - sin (rval 32 m)) <= 3.1e-4 + 0.0074 * Rabs (rval 32 m) * ulp 32.
Proof.
  assert (U : 0 <= ulp 32) by apply ulp_nn. pose proof (Rabs_pos (rval 32 m)).
  assert (0 <= Rabs (rval 32 m) * ulp 32) by nra.
  destruct (Z.lt_ge_cases (Z.abs m) 644245) as [L|G]; [|eapply Rle_trans; [apply sin64_acc; auto|lra]].
  destruct (sin64_tiny m L) as [E _]. pose proof (sin_abs_le (rval 32 m)) as SA.
  assert (RA : Rabs (rval 32 m) <= 0.000151).
  { rewrite rval_abs. unfold rval. change (IZR (2 ^ 32)) with 4294967296. assert (IZR (Z.abs m) <= 644245) by (apply IZR_le; lia). lra. }
  assert (RS : Rabs (rval 32 (sin64 m)) = Rabs (rval 32 m)) by (destruct E as [-> | ->]; [auto|rewrite rval_opp, Rabs_Ropp; auto]).
  pose proof (Rabs_triang (rval 32 (sin64 m)) (- sin (rval 32 m))) as TR. rewrite Rabs_Ropp in TR. unfold Rminus. lra.
Qed.

(** ** cos *)
Definition cos_arg (P K m : Z) : Z := if (0 <? m)%Z then (m - K)%Z else (m + P)%Z.
Lemma cos32_eq m : valid F32 m = true -> fx_cos F32 m = Ok (sin32 (cos_arg 102943 308831 m)).
Proof.
  intros V. pose proof (proj1 (std_valid F32 s32 m) V) as R. cbn [cf F32] in R. change (2 ^ 16)%Z with 65536%Z in R.
  unfold fx_cos. change (pi_v F32) with (@Ok Z (205887)%Z). cbn [bind].
  change (fx_of_int F32 2) with (@Ok Z (131072)%Z). cbn [bind]. change (fx_div F32 205887 131072) with (@Ok Z (102943)%Z). cbn [bind].
  change (fx_mul F32 205887 131072) with (@Ok Z (411774)%Z). cbn [bind].
  assert (E : (if c_lt int32 (ct F32) 0 m then let* d := fx_sub F32 411774 102943 in fx_sub F32 m d else fx_add F32 m 102943) = Ok (cos_arg 102943 308831 m)).
  { change (fx_sub F32 411774 102943) with (@Ok Z (308831)%Z). cbn [bind]. unfold cos_arg.
    assert (CL : c_lt int32 (ct F32) 0 m = (0 <? m)%Z).
    { unfold c_lt. change (uac int32 (ct F32)) with int32. rewrite !wrap_id; auto. }
    rewrite CL. destruct (Z.ltb_spec 0 m).
    - apply s_sub; auto using s32; try reflexivity. apply (std_valid F32 s32). cbn [cf F32]. change (2 ^ 16)%Z with 65536%Z. lia.
    - apply s_add; auto using s32; try reflexivity. apply (std_valid F32 s32). cbn [cf F32]. change (2 ^ 16)%Z with 65536%Z. lia. }
  rewrite E. cbn [bind]. apply sin32_eq.
  - apply (std_valid F32 s32). cbn [cf F32]. change (2 ^ 16)%Z with 65536%Z. unfold cos_arg. destruct (Z.ltb_spec 0 m); lia.
  - unfold cos_arg. destruct (Z.ltb_spec 0 m); lia.
Qed.
Lemma cos64_eq m : valid F64 m = true -> fx_cos F64 m = Ok (sin64 (cos_arg 6746518852 20239556556 m)).
Proof.
  intros V. pose proof (proj1 (std_valid F64 s64 m) V) as R. cbn [cf F64] in R. change (2 ^ 32)%Z with 4294967296%Z in R.
  unfold fx_cos. change (pi_v F64) with (@Ok Z (13493037704)%Z). cbn [bind].
  change (fx_of_int F64 2) with (@Ok Z (8589934592)%Z). cbn [bind]. change (fx_div F64 13493037704 8589934592) with (@Ok Z (6746518852)%Z). cbn [bind].
  change (fx_mul F64 13493037704 8589934592) with (@Ok Z (26986075408)%Z). cbn [bind].
  assert (E : (if c_lt int32 (ct F64) 0 m then let* d := fx_sub F64 26986075408 6746518852 in fx_sub F64 m d else fx_add F64 m 6746518852) = Ok (cos_arg 6746518852 20239556556 m)).
  { change (fx_sub F64 26986075408 6746518852) with (@Ok Z (20239556556)%Z). cbn [bind]. unfold cos_arg.
    assert (CL : c_lt int32 (ct F64) 0 m = (0 <? m)%Z).
    { unfold c_lt. change (uac int32 (ct F64)) with int64. rewrite !wrap_id; auto. }
    rewrite CL. destruct (Z.ltb_spec 0 m).
    - apply s_sub; auto using s64; try reflexivity. apply (std_valid F64 s64). cbn [cf F64]. change (2 ^ 32)%Z with 4294967296%Z. lia.
    - apply s_add; auto using s64; try reflexivity. apply (std_valid F64 s64). cbn [cf F64]. change (2 ^ 32)%Z with 4294967296%Z. lia. }
  rewrite E. cbn [bind]. apply sin64_eq.
  - apply (std_valid F64 s64). cbn [cf F64]. change (2 ^ 32)%Z with 4294967296%Z. unfold cos_arg. destruct (Z.ltb_spec 0 m); lia.
  - unfold cos_arg. destruct (Z.ltb_spec 0 m); lia.
Qed.

Lemma cos_sin_arg f P K m (d : R) : (0 <= f)%Z ->
  Rabs (rval f P - PI / 2) <= d -> Rabs (rval f K - 3 * (PI / 2)) <= d ->
  Rabs (sin (rval f (cos_arg P K m)) - cos (rval f m)) <= d.
Proof.
  intros Hf H1 H2. pose proof (pow2_gt0 f Hf) as HP. unfold cos_arg. destruct (0 <? m)%Z.
  - assert (E : cos (rval f m) = sin (rval f m - 3 * (PI / 2))).
    { rewrite cos_sin. rewrite <- (sin_2kpi (rval f m - 3 * (PI / 2)) 1). f_equal. field. }
    rewrite E. eapply Rle_trans; [apply sin_lip|].
    replace (rval f (m - K) - (rval f m - 3 * (PI / 2))) with (- (rval f K - 3 * (PI / 2))).
    + rewrite Rabs_Ropp. auto.
    + unfold rval. rewrite minus_IZR. field. lra.
  - rewrite cos_sin. eapply Rle_trans; [apply sin_lip|].
    replace (rval f (m + P) - (PI / 2 + rval f m)) with (rval f P - PI / 2); auto.
    unfold rval. rewrite plus_IZR. field. lra.
Qed.
Lemma cos_arg_abs f P K m : (0 <= f)%Z -> Rabs (rval f (cos_arg P K m)) <= Rabs (rval f m) + Rabs (rval f P) + Rabs (rval f K).
Proof.
  intros Hf. pose proof (pow2_gt0 f Hf) as HP. unfold cos_arg.
  pose proof (Rabs_pos (rval f P)). pose proof (Rabs_pos (rval f K)). destruct (0 <? m)%Z.
  - replace (rval f (m - K)) with (rval f m + - rval f K) by (unfold rval; rewrite minus_IZR; field; lra).
    pose proof (Rabs_triang (rval f m) (- rval f K)). rewrite Rabs_Ropp in *. lra.
  - replace (rval f (m + P)) with (rval f m + rval f P) by (unfold rval; rewrite plus_IZR; field; lra).
    pose proof (Rabs_triang (rval f m) (rval f P)). lra.
Qed.
Lemma cos32_acc m :
  Rabs (rval 16 (sin32 (cos_arg 102943 308831 m)) - cos (rval 16 m)) <= (18 + 0.14 * Rabs (rval 16 m)) * ulp 16.
Proof.
  pose proof (sin32_all (cos_arg 102943 308831 m)) as A.
  assert (U : ulp 16 = / 65536) by reflexivity.
  assert (B : Rabs (sin (rval 16 (cos_arg 102943 308831 m)) - cos (rval 16 m)) <= 0.71 * ulp 16).
  { apply cos_sin_arg; [lia| |]; unfold rval, ulp; change (2 ^ 16)%Z with 65536%Z; interval with (i_prec 60). }
  pose proof (cos_arg_abs 16 102943 308831 m ltac:(lia)) as D.
  assert (Rabs (rval 16 102943) <= 1.6) by (unfold rval; change (2 ^ 16)%Z with 65536%Z; interval with (i_prec 60)).
  assert (Rabs (rval 16 308831) <= 4.8) by (unfold rval; change (2 ^ 16)%Z with 65536%Z; interval with (i_prec 60)).
  set (s := rval 16 (sin32 (cos_arg 102943 308831 m))) in *. set (x := rval 16 (cos_arg 102943 308831 m)) in *.
  replace (s - cos (rval 16 m)) with ((s - sin x) + (sin x - cos (rval 16 m))) by ring.
  eapply Rle_trans; [apply Rabs_triang|]. rewrite U in *. lra.
Qed.
Lemma cos64_acc m :
  Rabs (rval 32 (sin64 (cos_arg 6746518852 20239556556 m)) - cos (rval 32 m)) <= 3.2e-4 + 0.0074 * Rabs (rval 32 m) * ulp 32.
Proof.
  pose proof (sin64_all (cos_arg 6746518852 20239556556 m)) as A.
  assert (U : ulp 32 = / 4294967296) by reflexivity.
  assert (B : Rabs (sin (rval 32 (cos_arg 6746518852 20239556556 m)) - cos (rval 32 m)) <= 0.8 * ulp 32).
  { apply cos_sin_arg; [lia| |]; unfold rval, ulp; change (2 ^ 32)%Z with 4294967296%Z; interval with (i_prec 100). }
  pose proof (cos_arg_abs 32 6746518852 20239556556 m ltac:(lia)) as D.
  assert (Rabs (rval 32 6746518852) <= 1.6) by (unfold rval; change (2 ^ 32)%Z with 4294967296%Z; interval with (i_prec 60)).
  assert (Rabs (rval 32 20239556556) <= 4.8) by (unfold rval; change (2 ^ 32)%Z with 4294967296%Z; interval with (i_prec 60)).
  set (s := rval 32 (sin64 (cos_arg 6746518852 20239556556 m))) in *. set (x := rval 32 (cos_arg 6746518852 20239556556 m)) in *.
  replace (s - cos (rval 32 m)) with ((s - sin x) + (sin x - cos (rval 32 m))) by ring.
  eapply Rle_trans; [apply Rabs_triang|]. rewrite U in *. lra.
Qed.

(** ** tan *)
Lemma tan_eq c m s cs : std c -> valid c m = true -> fx_sin c m = Ok s -> fx_cos c m = Ok cs ->
  valid c s = true -> (Z.abs cs <= 2 * 2 ^ cf c)%Z ->
  ((Z.abs cs <= 1)%Z -> fx_tan c m = Throw domain_error) /\
  ((1 < Z.abs cs)%Z -> fx_tan c m = Ok (wrap (ct c) (Z.quot (s * 2 ^ cf c) cs))).
Proof.
  intros HS V ES EC VS RC. pose proof (std_M c HS) as HM. pose proof (std_wf c HS) as W. pose proof (std_nr c HS) as NR.
  set (M := (2 ^ cf c)%Z) in *.
  assert (VC : forall k, (Z.abs k <= 2 * M)%Z -> valid c k = true) by (intros; apply std_valid; auto; fold M; nia).
  unfold fx_tan. rewrite EC. cbn [bind]. rewrite s_abs by (auto; apply VC; lia). cbn [bind].
  assert (CL : c_lt int32 (ct c) 1 (Z.abs cs) = (1 <? Z.abs cs)%Z).
  { unfold c_lt. replace (uac int32 (ct c)) with (ct c) by (destruct HS as [-> | ->]; reflexivity).
    rewrite !wrap_id; auto using std_t_ok; apply VC; lia. }
  rewrite CL. rewrite ES. cbn [bind]. split; intros L.
  - destruct (Z.ltb_spec 1 (Z.abs cs)); [lia|auto].
  - destruct (Z.ltb_spec 1 (Z.abs cs)); [|lia]. rewrite fx_div_eq by (auto; lia || (apply VC; lia)). reflexivity.
Qed.
Lemma rv_bound f z k (b : R) : Rabs (rval f z) <= b -> (0 <= f)%Z -> b * IZR (2 ^ f) < IZR k + 1 -> (Z.abs z <= k)%Z.
Proof.
  intros H Hf HB. rewrite <- plus_IZR in HB. pose proof (pow2_gt0 f Hf) as HP. apply Zlt_succ_le. unfold Z.succ. apply lt_IZR.
  rewrite rval_abs in H. unfold rval in H. eapply Rle_lt_trans; [|exact HB].
  apply Rmult_le_reg_r with (/ IZR (2 ^ f)); [apply Rinv_0_lt_compat; auto|].
  rewrite Rmult_assoc, Rinv_r, Rmult_1_r by lra. exact H.
Qed.
Lemma sin32_int m : (Z.abs (sin32 m) <= 65544)%Z.
Proof.
  apply (rv_bound 16 _ _ (1 + 8 * ulp 16)); [apply sin32_range|lia|]. unfold ulp. change (IZR (2 ^ 16)) with 65536. lra.
Qed.
Lemma sin64_int m : (Z.abs (sin64 m) <= 4294983231)%Z.
Proof.
  apply (rv_bound 32 _ _ (1 + 3.71e-6)); [apply sin64_range|lia|]. change (IZR (2 ^ 32)) with 4294967296. lra.
Qed.
