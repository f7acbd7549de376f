(** exp and pow: statement-level lemmas. *)
From Coq Require Import ZArith Reals Lia Lra Psatz Bool.
From Interval Require Import Tactic.
From Verif Require Import Base Fixed Math Spec SpecReal BaseLemmas FixedLemmas CLemmas MathProofs PowProofs RealLemmas StdProofs
  LogProofs LogThms SinPoly SinThms RealThms ExpProofs ExpDef.
Open Scope R_scope.

Lemma exp0 c : std c -> fx_exp c 0 = Ok (2 ^ cf c)%Z.
Proof. intros [-> | ->]; reflexivity. Qed.
Lemma v0_std c : std c -> valid c 0 = true.
Proof. intros [-> | ->]; reflexivity. Qed.
Lemma exp_pos_eq c m : std c -> valid c m = true -> (0 < m)%Z -> fx_exp c m = exp_expand c m.
Proof.
  intros HS V P. unfold fx_exp. rewrite s_int by (auto using v0_std). cbn [bind Z.mul].
  rewrite s_eq, s_lt by (auto using v0_std). replace (m =? 0)%Z with false by lia. replace (m <? 0)%Z with false by lia. reflexivity.
Qed.
Lemma exp_neg_eq c m d : std c -> valid c m = true -> valid c (- m) = true -> (0 < m)%Z -> exp_expand c m = Ok d -> valid c d = true ->
  fx_exp c (- m) = if (d =? 0)%Z then UB else Ok (wrap (ct c) (Z.quot (2 ^ cf c * 2 ^ cf c) d)).
Proof.
  intros HS V' V P E Vd. pose proof (std_wf c HS) as W. pose proof (std_nr c HS) as NR. pose proof (std_M c HS) as HM.
  unfold fx_exp. rewrite s_int by (auto using v0_std). cbn [bind Z.mul].
  rewrite s_eq, s_lt by (auto using v0_std). replace (- m =? 0)%Z with false by lia. replace (- m <? 0)%Z with true by lia.
  rewrite s_neg by (auto; rewrite Z.opp_involutive; auto). cbn [bind]. rewrite Z.opp_involutive, E. cbn [bind].
  assert (V1 : valid c (1 * 2 ^ cf c) = true) by (apply (std_valid c HS); nia).
  rewrite s_int by auto. cbn [bind]. rewrite Z.mul_1_l in *.
  destruct (Z.eqb_spec d 0) as [->|N].
  - apply fx_div_zero; auto.
  - rewrite fx_div_eq by auto. reflexivity.
Qed.

(** the constants *)
Lemma exp_expand32 m : valid F32 m = true -> (0 <= m)%Z ->
  exists p, fx_pow_int F32 int32 178145 (m / 2 ^ 16) = Ok p /\ valid F32 p = true /\
  exp_expand F32 m = Ok (wrap int32 (fm (2 ^ 16) p (exp_poly_z (2 ^ 16) 911 2280 11167 32708 32770 65535 (m mod 2 ^ 16)))).
Proof.
  intros V P. exact (exp_expand_eq F32 s32 911 2280 11167 32708 32770 65535 178145 eq_refl eq_refl eq_refl eq_refl eq_refl eq_refl eq_refl
    ltac:(zside) ltac:(zside) ltac:(zside) ltac:(zside) ltac:(zside) ltac:(zside) ltac:(zside) m V P).
Qed.
Lemma exp_expand64 m : valid F64 m = true -> (0 <= m)%Z ->
  exists p, fx_pow_int F64 int64 11674931554 (m / 2 ^ 32) = Ok p /\ valid F64 p = true /\
  exp_expand F64 m = Ok (wrap int64 (fm (2 ^ 32) p (exp_poly_z (2 ^ 32) 59716057 149467315 731870904 2143601421 2147654280 4294962444 (m mod 2 ^ 32)))).
Proof.
  intros V P. exact (exp_expand_eq F64 s64 59716057 149467315 731870904 2143601421 2147654280 4294962444 11674931554 eq_refl eq_refl eq_refl eq_refl eq_refl eq_refl eq_refl
    ltac:(zside) ltac:(zside) ltac:(zside) ltac:(zside) ltac:(zside) ltac:(zside) ltac:(zside) m V P).
Qed.
Lemma exp_expand_total c m : std c -> valid c m = true -> (0 <= m)%Z -> exists d, exp_expand c m = Ok d /\ valid c d = true.
Proof.
  intros [-> | ->] V P.
  - destruct (exp_expand32 m V P) as (p & _ & _ & E). eexists. split; [exact E|]. apply wrap_range. reflexivity.
  - destruct (exp_expand64 m V P) as (p & _ & _ & E). eexists. split; [exact E|]. apply wrap_range. reflexivity.
Qed.
Lemma exp_nonneg_total c m : std c -> valid c m = true -> (0 <= m)%Z -> exists r, fx_exp c m = Ok r /\ valid c r = true.
Proof.
  intros HS V P. destruct (Z.eq_dec m 0) as [->|N].
  - rewrite exp0 by auto. eexists. split; [reflexivity|]. destruct HS as [-> | ->]; reflexivity.
  - rewrite exp_pos_eq by (auto; lia). apply exp_expand_total; auto.
Qed.
Lemma exp32_total m : valid F32 m = true -> m <> MIN32 -> exists r, fx_exp F32 m = Ok r /\ valid F32 r = true.
Proof.
  intros V N. destruct (Z.le_gt_cases 0 m) as [L|G]; [apply exp_nonneg_total; auto; apply s32|].
  unfold MIN32 in N. assert (V' : valid F32 (- m) = true) by (apply valid32 in V; apply valid32; lia).
  destruct (exp_expand32 (- m) V' ltac:(lia)) as (p & Ep & Vp & E).
  rewrite <- (Z.opp_involutive m) in V |- *. set (k := (- m)%Z) in *.
  rewrite (exp_neg_eq F32 k _ s32 V' V ltac:(lia) E) by (apply wrap_range; reflexivity).
  assert (K : (0 <= k / 2 ^ 16 < 32768)%Z).
  { apply valid32 in V'. split; [apply Z.div_pos; lia|apply Z.div_lt_upper_bound; lia]. }
  pose proof (pow_pok _ p K Ep) as PK.
  pose proof (Z.mod_pos_bound k (2 ^ 16) ltac:(lia)) as MB. set (x := (k mod 2 ^ 16)%Z) in *.
  assert (Q : (65535 <= exp_poly_z (2 ^ 16) 911 2280 11167 32708 32770 65535 x <= 145371)%Z).
  { unfold exp_poly_z. clear - MB. clearbody x. change (2 ^ 16)%Z with 65536%Z in *.
    assert (FM : forall v, (0 <= v <= 400000)%Z -> (0 <= fm 65536 x v <= v)%Z).
    { intros v Hv. unfold fm. split; [apply Z.div_pos; nia|apply Z.div_le_upper_bound; nia]. }
    pose proof (FM 911%Z ltac:(lia)). set (a1 := fm 65536 x 911) in *.
    pose proof (FM (2280 + a1)%Z ltac:(lia)). set (a2 := fm 65536 x (2280 + a1)) in *.
    pose proof (FM (11167 + a2)%Z ltac:(lia)). set (a3 := fm 65536 x (11167 + a2)) in *.
    pose proof (FM (32708 + a3)%Z ltac:(lia)). set (a4 := fm 65536 x (32708 + a3)) in *.
    pose proof (FM (32770 + a4)%Z ltac:(lia)). lia. }
  pose proof (pok_nonzero p _ PK Vp Q) as NZ. change 65536%Z with (2 ^ 16)%Z in NZ.
  destruct (Z.eqb_spec (wrap int32 (fm (2 ^ 16) p (exp_poly_z (2 ^ 16) 911 2280 11167 32708 32770 65535 x))) 0) as [Z0|_]; [contradiction|].
  eexists. split; [reflexivity|]. apply wrap_range. reflexivity.
Qed.

(** ** accuracy where the result is representable *)
Ltac pow_case H :=
  match type of H with ?e = Ok ?p => let v := eval vm_compute in e in
    match v with Ok ?w => assert (EE : e = Ok w) by (vm_compute; reflexivity); rewrite EE in H; apply ok_inj in H; subst p; clear EE end end.
Lemma pow32_real p n : (0 <= n <= 10)%Z -> fx_pow_int F32 int32 178145 n = Ok p -> (1 - 3e-5) * exp (IZR n) <= rval 16 p <= exp (IZR n).
Proof.
  intros Hn H.
  assert (D : (n = 0 \/ n = 1 \/ n = 2 \/ n = 3 \/ n = 4 \/ n = 5 \/ n = 6 \/ n = 7 \/ n = 8 \/ n = 9 \/ n = 10)%Z) by lia.
  unfold rval. change (IZR (2 ^ 16)) with 65536.
  repeat (destruct D as [-> | D]); try subst n; pow_case H; split; interval with (i_prec 60).
Qed.
Lemma pow64_real p n : (0 <= n <= 21)%Z -> fx_pow_int F64 int64 11674931554 n = Ok p -> (1 - 1e-7) * exp (IZR n) <= rval 32 p <= exp (IZR n).
Proof.
  intros Hn H.
  assert (D : (n = 0 \/ n = 1 \/ n = 2 \/ n = 3 \/ n = 4 \/ n = 5 \/ n = 6 \/ n = 7 \/ n = 8 \/ n = 9 \/ n = 10 \/ n = 11 \/
    n = 12 \/ n = 13 \/ n = 14 \/ n = 15 \/ n = 16 \/ n = 17 \/ n = 18 \/ n = 19 \/ n = 20 \/ n = 21)%Z) by lia.
  unfold rval. change (IZR (2 ^ 32)) with 4294967296.
  repeat (destruct D as [-> | D]); try subst n; pow_case H; split; interval with (i_prec 90).
Qed.
Lemma hq32 X : 0 <= X <= 1 -> 0.8159 * exp X + 5 * ulp 16 <= hq 16 911 2280 11167 32708 32770 65535 X <= exp X.
Proof.
  intros H. unfold hq, rval, ulp. change (IZR (2 ^ 16)) with 65536.
  split; apply Rminus_le; interval with (i_bisect X, i_taylor X, i_prec 60).
Qed.
Lemma hq64 X : 0 <= X <= 1 -> 0.816 * exp X + 5 * ulp 32 <= hq 32 59716057 149467315 731870904 2143601421 2147654280 4294962444 X <= exp X.
Proof.
  intros H. unfold hq, rval, ulp. change (IZR (2 ^ 32)) with 4294967296.
  split; apply Rminus_le; interval with (i_bisect X, i_taylor X, i_prec 60).
Qed.
Lemma expand_acc32 m : valid F32 m = true -> (0 <= m)%Z -> exp (rval 16 m) < 32768 ->
  exists d, exp_expand F32 m = Ok d /\ valid F32 d = true /\ 0.8158 * exp (rval 16 m) - ulp 16 <= rval 16 d <= exp (rval 16 m).
Proof.
  intros V P L. destruct (exp_expand32 m V P) as (p & Ep & Vp & E).
  eexists. split; [exact E|].
  destruct (exp_pos_acc F32 911 2280 11167 32708 32770 65535 178145 10 3e-5 0.8159 m s32) with
    (r := wrap int32 (fm (2 ^ 16) p (exp_poly_z (2 ^ 16) 911 2280 11167 32708 32770 65535 (m mod 2 ^ 16)))) as [V1 A]; auto.
  - intros p' n Hn Hp. apply pow32_real; auto.
  - cbn [cf F32]. change (IZR (2 ^ 16)) with 65536. change (10 + 1)%Z with 11%Z. interval with (i_prec 60).
  - exact hq32.
  - lra.
  - lra.
  - cbn [cf F32]. change (IZR (2 ^ 16)) with 65536. lra.
  - exists p. split; auto.
  - split; auto. cbn [cf F32] in A. pose proof (exp_pos (rval 16 m)). lra.
Qed.
Lemma expand_acc64 m : valid F64 m = true -> (0 <= m)%Z -> exp (rval 32 m) < 2147483648 ->
  exists d, exp_expand F64 m = Ok d /\ valid F64 d = true /\ 0.8159 * exp (rval 32 m) - ulp 32 <= rval 32 d <= exp (rval 32 m).
Proof.
  intros V P L. destruct (exp_expand64 m V P) as (p & Ep & Vp & E).
  eexists. split; [exact E|].
  destruct (exp_pos_acc F64 59716057 149467315 731870904 2143601421 2147654280 4294962444 11674931554 21 1e-7 0.816 m s64) with
    (r := wrap int64 (fm (2 ^ 32) p (exp_poly_z (2 ^ 32) 59716057 149467315 731870904 2143601421 2147654280 4294962444 (m mod 2 ^ 32)))) as [V1 A]; auto.
  - intros p' n Hn Hp. apply pow64_real; auto.
  - cbn [cf F64]. change (IZR (2 ^ 32)) with 4294967296. change (21 + 1)%Z with 22%Z. interval with (i_prec 60).
  - exact hq64.
  - lra.
  - lra.
  - cbn [cf F64]. change (IZR (2 ^ 32)) with 4294967296. lra.
  - exists p. split; auto.
  - split; auto. cbn [cf F64] in A. pose proof (exp_pos (rval 32 m)). lra.
Qed.

Lemma recip_acc c d X K : std c -> valid c d = true -> 1 <= X -> 0.8158 <= K -> K * X - ulp (cf c) <= rval (cf c) d <= X ->
  exists r, r = Z.quot (2 ^ cf c * 2 ^ cf c) d /\ d <> 0%Z /\ valid c r = true /\ (0 < r)%Z /\ / X - ulp (cf c) < rval (cf c) r <= 1.226 * / X.
Proof.
  intros HS V HX HK A. pose proof (std_M c HS) as HM. set (f := cf c) in *.
  assert (RM : 65536 <= IZR (2 ^ f)) by (apply IZR_le; lia).
  assert (U : 0 < ulp f <= / 65536) by (split; [apply Rinv_0_lt_compat; lra|apply Rinv_le_contravar; lra]).
  assert (D0 : 0.8 <= rval f d) by nra.
  assert (Dp : (0 < d)%Z).
  { apply lt_IZR. unfold rval in D0. apply Rmult_lt_reg_r with (/ IZR (2 ^ f)); [apply Rinv_0_lt_compat; lra|]. rewrite Rmult_0_l.
    change (IZR d * / IZR (2 ^ f)) with (IZR d / IZR (2 ^ f)). lra. }
  exists (Z.quot (2 ^ f * 2 ^ f) d). split; auto. split; [lia|].
  rewrite Z.quot_div_nonneg by nia. set (r := (2 ^ f * 2 ^ f / d)%Z).
  pose proof (div_real (2 ^ f * 2 ^ f) d Dp) as DR. fold r in DR. rewrite mult_IZR in DR.
  set (RMv := IZR (2 ^ f)) in *. assert (ED : IZR d = rval f d * RMv) by (unfold rval; fold RMv; field; lra).
  rewrite ED in DR. set (vd := rval f d) in *.
  replace (RMv * RMv / (vd * RMv)) with (RMv * / vd) in DR by (field; split; lra).
  assert (I1 : / X <= / vd) by (apply Rinv_le_contravar; lra).
  assert (I0 : 0 < / X) by (apply Rinv_0_lt_compat; lra).
  assert (I2 : / vd <= 1.226 * / X).
  { replace (1.226 * / X) with (/ (X / 1.226)) by (field; lra). apply Rinv_le_contravar; [lra|]. nra. }
  assert (ER : rval f r = IZR r * / RMv) by reflexivity.
  assert (UI : ulp f = / RMv) by reflexivity.
  assert (R1 : IZR r * / RMv <= / vd).
  { apply Rmult_le_reg_r with RMv; [lra|]. rewrite Rmult_assoc, Rinv_l, Rmult_1_r by lra. lra. }
  assert (R2 : / vd - / RMv < IZR r * / RMv).
  { apply Rmult_lt_reg_r with RMv; [lra|]. rewrite Rmult_minus_distr_r, Rmult_assoc, Rinv_l, Rmult_1_r by lra. lra. }
  assert (RP : (0 < r)%Z).
  { unfold r. apply Z.div_str_pos. split; auto. apply (std_valid c HS) in V. fold f in V. lia. }
  split; [|split; auto; rewrite ER, UI; lra].
  apply (std_valid c HS). fold f. assert (r <= 2 * 2 ^ f)%Z; [|nia].
  apply le_IZR. rewrite mult_IZR. fold RMv.
  assert (I3 : / vd <= 2). { replace 2 with (/ (/ 2)) by field. apply Rinv_le_contravar; lra. }
  nra.
Qed.

Lemma exp32_acc m : valid F32 m = true -> exp (Rabs (rval 16 m)) < 32768 ->
  exists r, fx_exp F32 m = Ok r /\ valid F32 r = true /\ 0 < rval 16 r /\
  (0 <= rval 16 m -> 0.8158 * exp (rval 16 m) - ulp 16 <= rval 16 r <= exp (rval 16 m)) /\
  (rval 16 m < 0 -> exp (rval 16 m) - ulp 16 < rval 16 r <= 1.226 * exp (rval 16 m)).
Proof.
  intros V L. assert (U : ulp 16 = / 65536) by reflexivity.
  destruct (Z.lt_trichotomy m 0) as [N|[->|P]].
  - assert (RN : rval 16 m < 0).
    { apply Rnot_le_lt. intros C. assert (0 < rval 16 (- m)) by (apply rval_pos_iff; lia). rewrite rval_opp in H. lra. }
    rewrite Rabs_left in L by auto.
    assert (NM : m <> (-2147483648)%Z).
    { intros ->. revert L. apply Rle_not_lt. unfold rval. change (IZR (2 ^ 16)) with 65536. interval with (i_prec 60). }
    assert (V' : valid F32 (- m) = true) by (apply valid32 in V; apply valid32; lia).
    rewrite <- rval_opp in L.
    destruct (expand_acc32 (- m) V' ltac:(lia) L) as (d & E & Vd & A).
    assert (X1 : 1 <= exp (rval 16 (- m))).
    { rewrite <- exp_0. left. apply exp_increasing. rewrite rval_opp. lra. }
    destruct (recip_acc F32 d _ 0.8158 s32 Vd X1 ltac:(lra) A) as (r & Er & Nd & Vr & Pr & B).
    replace (fx_exp F32 m) with (fx_exp F32 (- - m)) by (rewrite Z.opp_involutive; reflexivity). rewrite (exp_neg_eq F32 (- m) d s32 V') by (auto; try lia; rewrite Z.opp_involutive; auto).
    replace (d =? 0)%Z with false by lia. rewrite <- Er. rewrite valid_wrap by (auto; reflexivity).
    exists r. split; auto. split; auto. split; [apply rval_pos_iff; lia|].
    assert (EI : / exp (rval 16 (- m)) = exp (rval 16 m)) by (rewrite rval_opp, <- exp_Ropp; f_equal; ring).
    rewrite EI in B. split; intros; [lra|exact B].
  - assert (R0 : rval 16 0 = 0) by (unfold rval; lra). rewrite exp0 by apply s32. exists 65536%Z. split; [reflexivity|]. split; [reflexivity|].
    assert (R1 : rval 16 65536 = 1) by (unfold rval; change (IZR (2 ^ 16)) with 65536; lra). rewrite R0, R1, exp_0, U. repeat split; lra.
  - assert (RP : 0 < rval 16 m) by (apply rval_pos_iff; lia). rewrite Rabs_pos_eq in L by lra.
    destruct (expand_acc32 m V ltac:(lia) L) as (d & E & Vd & A). rewrite exp_pos_eq by (auto; apply s32).
    exists d. split; auto. split; auto.
    assert (X1 : 1 <= exp (rval 16 m)) by (rewrite <- exp_0; left; apply exp_increasing; lra).
    split; [lra|]. split; intros; [exact A|lra].
Qed.
Lemma exp64_acc m : valid F64 m = true -> exp (Rabs (rval 32 m)) < 2147483648 ->
  exists r, fx_exp F64 m = Ok r /\ valid F64 r = true /\ 0 < rval 32 r /\
  (0 <= rval 32 m -> 0.8159 * exp (rval 32 m) - ulp 32 <= rval 32 r <= exp (rval 32 m)) /\
  (rval 32 m < 0 -> exp (rval 32 m) - ulp 32 < rval 32 r <= 1.226 * exp (rval 32 m)).
Proof.
  intros V L. assert (U : ulp 32 = / 4294967296) by reflexivity.
  destruct (Z.lt_trichotomy m 0) as [N|[->|P]].
  - assert (RN : rval 32 m < 0).
    { apply Rnot_le_lt. intros C. assert (0 < rval 32 (- m)) by (apply rval_pos_iff; lia). rewrite rval_opp in H. lra. }
    rewrite Rabs_left in L by auto.
    assert (NM : m <> (-9223372036854775808)%Z).
    { intros ->. revert L. apply Rle_not_lt. unfold rval. change (IZR (2 ^ 32)) with 4294967296. interval with (i_prec 60). }
    assert (V' : valid F64 (- m) = true) by (apply valid64 in V; apply valid64; lia).
    rewrite <- rval_opp in L.
    destruct (expand_acc64 (- m) V' ltac:(lia) L) as (d & E & Vd & A).
    assert (X1 : 1 <= exp (rval 32 (- m))).
    { rewrite <- exp_0. left. apply exp_increasing. rewrite rval_opp. lra. }
    destruct (recip_acc F64 d _ 0.8159 s64 Vd X1 ltac:(lra) A) as (r & Er & Nd & Vr & Pr & B).
    replace (fx_exp F64 m) with (fx_exp F64 (- - m)) by (rewrite Z.opp_involutive; reflexivity). rewrite (exp_neg_eq F64 (- m) d s64 V') by (auto; try lia; rewrite Z.opp_involutive; auto).
    replace (d =? 0)%Z with false by lia. rewrite <- Er. rewrite valid_wrap by (auto; reflexivity).
    exists r. split; auto. split; auto. split; [apply rval_pos_iff; lia|].
    assert (EI : / exp (rval 32 (- m)) = exp (rval 32 m)) by (rewrite rval_opp, <- exp_Ropp; f_equal; ring).
    rewrite EI in B. split; intros; [lra|exact B].
  - assert (R0 : rval 32 0 = 0) by (unfold rval; lra). rewrite exp0 by apply s64. exists 4294967296%Z. split; [reflexivity|]. split; [reflexivity|].
    assert (R1 : rval 32 4294967296 = 1) by (unfold rval; change (IZR (2 ^ 32)) with 4294967296; lra). rewrite R0, R1, exp_0, U. repeat split; lra.
  - assert (RP : 0 < rval 32 m) by (apply rval_pos_iff; lia). rewrite Rabs_pos_eq in L by lra.
    destruct (expand_acc64 m V ltac:(lia) L) as (d & E & Vd & A). rewrite exp_pos_eq by (auto; apply s64).
    exists d. split; auto. split; auto.
    assert (X1 : 1 <= exp (rval 32 m)) by (rewrite <- exp_0; left; apply exp_increasing; lra).
    split; [lra|]. split; intros; [exact A|lra].
Qed.

(** integral arguments: the faulty polynomial is not involved *)
Lemma exp32_int n : (0 <= n <= 10)%Z ->
  exists r, fx_exp F32 (n * 65536) = Ok r /\ Rabs (rval 16 r - exp (IZR n)) <= 5e-5 * exp (IZR n) + ulp 16.
Proof.
  intros Hn. assert (U : ulp 16 = / 65536) by reflexivity. destruct (Z.eq_dec n 0) as [->|N0].
  - exists 65536%Z. split; [reflexivity|]. assert (R1 : rval 16 65536 = 1) by (unfold rval; change (IZR (2 ^ 16)) with 65536; lra).
    rewrite R1, exp_0, U. rewrite Rminus_diag_eq by auto. rewrite Rabs_R0. lra.
  - assert (V : valid F32 (n * 65536) = true) by (apply valid32; lia).
    destruct (exp_expand32 (n * 65536) V ltac:(lia)) as (p & Ep & Vp & E).
    rewrite exp_pos_eq by (auto; try lia; apply s32). rewrite E. eexists. split; [reflexivity|].
    change (2 ^ 16)%Z with 65536%Z in *. rewrite Z.div_mul, Z.mod_mul in * by lia.
    change (exp_poly_z 65536 911 2280 11167 32708 32770 65535 0) with 65535%Z.
    pose proof (pow32_real p n Hn Ep) as A.
    assert (X : exp (IZR n) < 32768).
    { assert (IZR n <= 10) by (apply IZR_le; lia). apply Rle_lt_trans with (exp 10); [|interval with (i_prec 60)].
      destruct H as [H|H]; [left; apply exp_increasing; auto|rewrite H; lra]. }
    pose proof (fm_r 16 p 65535 ltac:(discriminate)) as FR. change (2 ^ 16)%Z with 65536%Z in FR. set (w := fm 65536 p 65535) in *.
    assert (R1 : rval 16 65535 = 65535 / 65536) by reflexivity. rewrite R1 in FR.
    pose proof (exp_pos (IZR n)) as EP.
    assert (W : valid F32 w = true).
    { apply valid32. assert (W : -1 < rval 16 w < 32768) by lra. unfold rval in W. change (IZR (2 ^ 16)) with 65536 in W.
      assert (-65536 < w)%Z by (apply lt_IZR; lra). assert (w < 2147483648)%Z by (apply lt_IZR; lra). lia. }
    rewrite (wrap_id int32 w eq_refl W). apply Rabs_le. lra.
Qed.

(** ** pow with a fixed exponent *)
Lemma log_total c m : std c -> valid c m = true -> (0 < m)%Z -> exists l, fx_log c m = Ok l /\ valid c l = true.
Proof.
  intros [-> | ->] V P; [destruct (log_acc32 m V P) as (r & E & Vr & _)|destruct (log_acc64 m V P) as (r & E & Vr & _)]; exists r; auto.
Qed.
Lemma pow_base0 c e : std c -> valid c e = true -> fx_pow c 0 e = Ok (if (e =? 0)%Z then 2 ^ cf c else 0)%Z.
Proof.
  intros HS V. unfold fx_pow. rewrite s_int by (auto using v0_std). cbn [bind Z.mul]. rewrite !s_eq by (auto using v0_std).
  cbn [Z.eqb]. destruct (e =? 0)%Z; destruct HS as [-> | ->]; reflexivity.
Qed.
Lemma ir64 x : (-9223372036854775808 <= x <= 9223372036854775807)%Z -> in_range int64 x = true.
Proof. intros H. apply in_range_iff. change (minv int64) with (-9223372036854775808)%Z. change (maxv int64) with 9223372036854775807%Z. exact H. Qed.
Lemma ir128 x : (-9223372036854775808 <= x <= 9223372036854775807)%Z -> in_range int128 x = true.
Proof.
  intros H. apply in_range_iff. change (minv int128) with (-170141183460469231731687303715884105728)%Z.
  change (maxv int128) with 170141183460469231731687303715884105727%Z. lia.
Qed.
(** the split of the exponent *)
Lemma pow_split c b e : std c -> valid c b = true -> valid c e = true -> b <> 0%Z ->
  fx_pow c b e = noexcept (
      let* p := fx_pow_int c (ct c) b (Z.quot e (2 ^ cf c)) in
      let* l := fx_log c b in
      let* m := fx_mul c (Z.rem e (2 ^ cf c)) l in
      let* x := fx_exp c m in
      fx_mul c p x).
Proof.
  intros HS Vb Ve Nb. unfold fx_pow. rewrite s_int by (auto using v0_std). cbn [bind Z.mul]. rewrite s_eq by (auto using v0_std).
  replace (b =? 0)%Z with false by lia.
  pose proof (std_M c HS) as HM. set (M := (2 ^ cf c)%Z) in *.
  assert (S : c_shl (ci c) 1 (cf c) = Ok M) by (destruct HS as [-> | ->]; reflexivity). rewrite S. cbn [bind].
  pose proof (Z.quot_rem e M ltac:(lia)) as QR. pose proof (Z.rem_bound_abs e M ltac:(lia)) as RB.
  assert (RS : (0 <= Z.rem e M * e)%Z) by (apply Z.rem_sign_mul; lia).
  assert (QA : (Z.abs (Z.quot e M) * M <= Z.abs e)%Z).
  { rewrite <- Z.quot_abs by lia. rewrite (Z.abs_eq M) by lia. rewrite Z.mul_comm. apply Z.mul_quot_le; lia. }
  assert (VQ : valid c (Z.quot e M) = true /\ valid c (Z.quot e M * M) = true).
  { pose proof (proj1 (std_valid c HS e) Ve) as B. fold M in B. split; apply (std_valid c HS); fold M; nia. }
  destruct VQ as [VQ VQM].
  assert (D : c_div (ct c) (promote (ci c)) e M = Ok (Z.quot e M)).
  { assert (K : exists t, uac (ct c) (promote (ci c)) = t /\ ity_ok t = true /\ in_range t e = true /\ in_range t M = true /\ in_range t (Z.quot e M) = true).
    { destruct HS as [-> | ->].
      - exists int64. split; [reflexivity|]. split; [reflexivity|]. apply valid32 in Ve. apply valid32 in VQ. repeat split; apply ir64; lia.
      - exists int128. split; [reflexivity|]. split; [reflexivity|]. apply valid64 in Ve. apply valid64 in VQ. repeat split; apply ir128; lia. }
    destruct K as (t & Et & K & R1 & R2 & R3). unfold c_div. rewrite Et. rewrite !wrap_id by auto. replace (M =? 0)%Z with false by lia. apply arith_ok; auto. }
  rewrite D. cbn [bind]. rewrite (wrap_id (ct c)) by (auto using std_t_ok). unfold fx_sub_assign_int. rewrite (wrap_id (ct c)) by (auto using std_t_ok).
  rewrite s_shl; auto; [|destruct HS as [-> | ->]; cbn; lia]. cbn [bind]. fold M.
  assert (VR : valid c (Z.rem e M) = true).
  { apply (std_valid c HS). fold M. nia. }
  pose proof (s_sub c HS e (Z.quot e M * M) Ve VQM) as SS. replace (e - Z.quot e M * M)%Z with (Z.rem e M) in SS by lia. specialize (SS VR).
  rewrite std_pt by auto.
  assert (SS' : (let* r := c_sub (ct c) (ct c) e (Z.quot e M * M) in Ok (wrap (ct c) r)) = Ok (Z.rem e M)) by exact SS.
  rewrite SS'. reflexivity.
Qed.
Lemma pow_loop_valid c dv : std c -> forall (fuel : nat) r i e p, valid c r = true -> valid c i = true -> in_range (ct c) e = true ->
  pow_loop fuel c (ct c) dv r i e = Ok p -> valid c p = true.
Proof.
  intros HS. pose proof (std_wf c HS) as W. pose proof (std_nr c HS) as NR. pose proof (wf_ct c W) as K.
  induction fuel as [|fuel IH]; intros r i e p Vr Vi R H; (destruct (Z.eq_dec e 0) as [->|N]; [rewrite pow_loop_0 in H by auto; apply ok_inj in H; subst; auto|]).
  - cbn [pow_loop] in H. rewrite ex_eq0 in H by auto. replace (e =? 0)%Z with false in H by lia. discriminate.
  - rewrite pow_loop_step in H by auto.
    assert (VW : forall z, valid c (wrap (ct c) z) = true) by (intros; apply wrap_range; auto).
    assert (S : forall r1, (if (Z.rem e 2 =? 0)%Z then Ok r else if dv then fx_div_assign c r i else fx_mul_assign c r i) = Ok r1 -> valid c r1 = true).
    { intros r1. destruct (Z.rem e 2 =? 0)%Z; [intros X; apply ok_inj in X; subst; auto|]. destruct dv.
      - change (fx_div_assign c r i) with (fx_div c r i). destruct (Z.eq_dec i 0) as [->|Ni].
        + rewrite fx_div_zero by auto. discriminate.
        + rewrite fx_div_eq by auto. intros X. apply ok_inj in X. subst. apply VW.
      - rewrite mul_assign_eq by auto. intros X. apply ok_inj in X. subst. apply VW. }
    destruct (if (Z.rem e 2 =? 0)%Z then _ else _) as [r1| | |] eqn:E1 in H; cbn [bind] in H; try discriminate.
    rewrite mul_assign_eq in H by auto. cbn [bind] in H.
    eapply IH; [| | |exact H]; auto. apply ex_half_t; auto.
Qed.
Lemma pow_int_valid c b n p : std c -> valid c b = true -> in_range (ct c) n = true -> fx_pow_int c (ct c) b n = Ok p -> valid c p = true.
Proof.
  intros HS Vb R H. pose proof (std_wf c HS) as W. unfold fx_pow_int in H. rewrite s_int in H by (auto using v0_std). cbn [bind Z.mul] in H.
  rewrite s_eq in H by (auto using v0_std).
  assert (V1 : valid c (1 * 2 ^ cf c) = true) by (destruct HS as [-> | ->]; reflexivity). rewrite s_int in H by auto.
  destruct (b =? 0)%Z.
  - destruct (c_eq _ _ _ _); apply ok_inj in H; subst; auto using v0_std.
  - cbn [bind] in H. destruct (c_lt _ _ _ _); eapply pow_loop_valid in H; eauto.
Qed.
Lemma pow_integer c b n : std c -> valid c b = true -> (0 < b)%Z -> valid c (n * 2 ^ cf c) = true ->
  fx_pow c b (n * 2 ^ cf c) = fx_pow_int c (ct c) b n.
Proof.
  intros HS Vb Pb Vn. pose proof (std_M c HS) as HM. pose proof (std_wf c HS) as W. pose proof (std_nr c HS) as NR.
  rewrite pow_split by (auto; lia). rewrite Z.quot_mul, Z.rem_mul by lia.
  destruct (log_total c b HS Vb Pb) as (l & El & Vl). rewrite El. cbn [bind].
  rewrite s_mul by (auto using v0_std; rewrite Z.mul_0_l, Z.div_0_l by lia; apply v0_std; auto). rewrite Z.mul_0_l, Z.div_0_l by lia. cbn [bind].
  rewrite exp0 by auto. cbn [bind].
  assert (R : in_range (ct c) n = true).
  { apply (std_valid c HS) in Vn. apply (std_valid c HS). nia. }
  pose proof (pow_int_plain c (ct c) b n (wf_ct c W) R) as PL.
  destruct (fx_pow_int c (ct c) b n) as [p| | |] eqn:E; cbn [bind noexcept]; try reflexivity; try destruct PL.
  assert (Vp : valid c p = true).
  { eapply (pow_int_valid c b n p); eauto. }
  assert (V1 : valid c (2 ^ cf c) = true) by (destruct HS as [-> | ->]; reflexivity).
  assert (EQ : (p * 2 ^ cf c / 2 ^ cf c)%Z = p) by (apply Z.div_mul; lia).
  rewrite s_mul by (auto; rewrite EQ; auto). rewrite EQ. reflexivity.
Qed.
Lemma pow_negative c b e : std c -> valid c b = true -> (b < 0)%Z -> valid c e = true -> (0 <= e)%Z -> fx_pow c b e = Throw terminated.
Proof.
  intros HS Vb Nb Ve Pe. pose proof (std_M c HS) as HM. pose proof (std_wf c HS) as W. pose proof (std_nr c HS) as NR.
  rewrite pow_split by (auto; lia).
  assert (R : in_range (ct c) (Z.quot e (2 ^ cf c)) = true).
  { apply (std_valid c HS) in Ve. apply (std_valid c HS). rewrite Z.quot_div_nonneg by lia.
    assert (0 <= e / 2 ^ cf c <= e)%Z by (split; [apply Z.div_pos; lia|apply Z.div_le_upper_bound; nia]). lia. }
  destruct (pow_int_total c W NR (ct c) b (Z.quot e (2 ^ cf c)) (wf_ct c W) R Vb) as (p & -> & _).
  { rewrite Z.quot_div_nonneg by lia. apply Z.div_pos; lia. }
  cbn [bind]. rewrite (proj1 (log_domain c b HS Vb ltac:(lia))). reflexivity.
Qed.
Lemma pow_exp0 c b : std c -> valid c b = true -> (0 <= b)%Z -> fx_pow c b 0 = Ok (2 ^ cf c)%Z.
Proof.
  intros HS V P. destruct (Z.eq_dec b 0) as [->|N]; [rewrite pow_base0 by (auto using v0_std); reflexivity|].
  pose proof (pow_integer c b 0 HS V ltac:(lia) ltac:(rewrite Z.mul_0_l; apply v0_std; auto)) as E. rewrite Z.mul_0_l in E. rewrite E.
  rewrite pow_0 by (auto using std_wf, std_t_ok). destruct HS as [-> | ->]; reflexivity.
Qed.
