(** The constants of sin for the instantiations of SinGen.v; accuracy of sin and cos. *)
From Coq Require Import ZArith Reals Lia Lra Psatz Bool List.
From Interval Require Import Tactic.
From Verif Require Import Base Fixed Math Spec SpecReal BaseLemmas FixedLemmas CLemmas MathProofs PowProofs RealLemmas StdProofs SinPoly SinProofs SinThms NumThms ExactProofs RefuteArith LogGen2 SinGen.
Import ListNotations.
Open Scope R_scope.

Lemma g_room c x : sin_cfg c -> x <= 7 -> x + ulp (cf c) <= rval (cf c) (maxv (ct c)).
Proof.
  intros HS X. pose proof (g_M c HS) as HM. pose proof (g_top c HS) as HT. rewrite (g_max c HS).
  unfold ulp, rval. set (M := (2 ^ cf c)%Z) in *. assert (R : 8 <= IZR M) by (apply IZR_le; lia).
  assert (0 < / IZR M) by (apply Rinv_0_lt_compat; lra).
  replace (x + / IZR M) with ((x * IZR M + 1) * / IZR M) by (field; lra).
  apply Rmult_le_compat_r; [lra|]. rewrite minus_IZR. apply IZR_le in HT. rewrite mult_IZR in HT. nra.
Qed.
Lemma g_const c r x : sin_cfg c -> In (r, x) (firstn 5 (constants c)) -> x <= 7 -> 
  exists m, r = Ok m /\ IZR m <= x * IZR (2 ^ cf c) < IZR m + 1.
Proof.
  intros HS I X. pose proof (g_f c HS) as F. pose proof (g_room c x HS X) as R.
  destruct (proj1 (pi_e_every c r x (g_wf c HS) I ltac:(lia) R) (g_nr c HS)) as (m & E & L & U). exists m. split; [exact E|].
  assert (P : 0 < IZR (2 ^ cf c)) by (apply IZR_lt, pow2_pos; lia). unfold rval, ulp in *. set (K := IZR (2 ^ cf c)) in *.
  split.
  - apply Rmult_le_reg_r with (/ K); [apply Rinv_0_lt_compat; auto|]. replace (x * K * / K) with x by (field; lra). exact L.
  - apply Rmult_lt_reg_r with (/ K); [apply Rinv_0_lt_compat; auto|]. replace (x * K * / K) with x by (field; lra).
    replace ((IZR m + 1) * / K) with (IZR m / K + / K) by (field; lra). exact U.
Qed.

(** pi * pi / n *)
Lemma coef c P n : sin_cfg c -> IZR P <= PI * IZR (2 ^ cf c) < IZR P + 1 -> (24 <= n < 1000)%Z ->
  exists A, (let* p := fx_mul c P P in fx_div_int c int32 p n) = Ok A /\ (0 <= A <= 2 ^ cf c)%Z /\
    PI * PI / IZR n - 2 * / IZR (2 ^ cf c) <= IZR A / IZR (2 ^ cf c) <= PI * PI / IZR n.
Proof.
  intros HS HP Hn. pose proof (g_M c HS) as HM. pose proof (g_top c HS) as HT. set (M := (2 ^ cf c)%Z) in *.
  assert (R : 8 <= IZR M) by (apply IZR_le; lia).
  assert (H3 : 3.1415 < PI < 3.15) by (split; interval with (i_prec 60)).
  assert (P4 : (3 * M < P < 4 * M)%Z) by (split; apply lt_IZR; rewrite mult_IZR; nra).
  set (PP := (P * P / M)%Z).
  assert (B : (0 <= PP < 16 * M)%Z).
  { unfold PP. split; [apply Z.div_pos; nia|]. apply Z.div_lt_upper_bound; nia. }
  assert (VP : valid c P = true) by (apply (g_valid c HS); lia).
  assert (VPP : valid c PP = true) by (apply (g_valid c HS); lia).
  exists (PP / n)%Z. split.
  { rewrite (g_mul c HS) by auto. fold M. fold PP. cbn [bind]. rewrite (g_div_int c HS) by (auto; lia). f_equal. apply Z.quot_div_nonneg; lia. }
  split.
  { split; [apply Z.div_pos; lia|]. apply Z.div_le_upper_bound; [lia|]. nia. }
  pose proof (div_real PP n ltac:(lia)) as D1. pose proof (div_real (P * P) M ltac:(lia)) as D2. fold PP in D2. rewrite mult_IZR in D2.
  set (RM := IZR M) in *. set (p := IZR P) in *. set (q := IZR (PP / n)) in *. set (pp := IZR PP) in *.
  assert (N24 : 24 <= IZR n) by (apply IZR_le; lia). set (N := IZR n) in *.
  assert (HI : 0 < / RM) by (apply Rinv_0_lt_compat; lra).
  assert (NI : 0 < / N <= / 24) by (split; [apply Rinv_0_lt_compat; lra|apply Rinv_le_contravar; lra]).
  (* pp within 7.3 of PI^2 RM *)
  assert (p0 : 0 <= p) by nra.
  assert (U : p * p / RM <= PI * PI * RM).
  { apply Rmult_le_reg_r with RM; [lra|]. replace (p * p / RM * RM) with (p * p) by (field; lra). nra. }
  assert (L : PI * PI * RM - 6.3 <= p * p / RM).
  { apply Rmult_le_reg_r with RM; [lra|]. replace (p * p / RM * RM) with (p * p) by (field; lra).
    assert ((PI * RM - 1) * (PI * RM - 1) <= p * p) by (apply Rmult_le_compat; nra). nra. }
  assert (U2 : pp * / N <= PI * PI * RM * / N) by (apply Rmult_le_compat_r; lra).
  assert (L2 : (PI * PI * RM - 7.3) * / N <= pp * / N) by (apply Rmult_le_compat_r; lra).
  assert (E : PI * PI / N = PI * PI * RM * / N * / RM) by (field; lra).
  assert (E2 : PI * PI * RM * / N - 2 <= q <= PI * PI * RM * / N).
  { unfold Rdiv in D1. lra. }
  rewrite E. split.
  - replace (PI * PI * RM * / N * / RM - 2 * / RM) with ((PI * PI * RM * / N - 2) * / RM) by ring. apply Rmult_le_compat_r; lra.
  - apply Rmult_le_compat_r; lra.
Qed.

Lemma g_threshold c : sin_cfg c -> exists TH, sin_threshold c = Ok TH /\ (0 <= TH)%Z /\ IZR TH <= 0.000151 * IZR (2 ^ cf c).
Proof.
  intros HS. pose proof (g_M c HS) as HM. pose proof (g_top c HS) as HT. set (M := (2 ^ cf c)%Z) in *.
  exists (5534023222112865 * M / 2 ^ 65)%Z.
  assert (P : (0 < 2 ^ 65)%Z) by reflexivity.
  assert (L := Z.mul_div_le (5534023222112865 * M) (2 ^ 65) P).
  assert (Q := Z.div_pos (5534023222112865 * M) (2 ^ 65) ltac:(lia) P).
  assert (V : valid c (5534023222112865 * M / 2 ^ 65) = true).
  { apply (g_valid c HS). change (2 ^ 65)%Z with 36893488147419103232%Z in *. lia. }
  split; [|split; auto].
  - unfold sin_threshold, fx_of_float, float_to_int. rewrite (g_nr c HS). fold M.
    rewrite Z.quot_div_nonneg by lia. change (0x13A92A30553261)%Z with 5534023222112865%Z.
    change (in_range (ct c) (5534023222112865 * M / 2 ^ 65)) with (valid c (5534023222112865 * M / 2 ^ 65)). rewrite V. reflexivity.
  - apply IZR_le in L. rewrite !mult_IZR in L. set (q := IZR (5534023222112865 * M / 2 ^ 65)) in *.
    change (2 ^ 65)%Z with 36893488147419103232%Z in L. assert (0 <= IZR M) by (apply IZR_le; lia). lra.
Qed.

(** everything the sections of SinGen.v ask for *)
Record sin_consts (c : cfg) (P H T TH A B C D : Z) : Prop := {
  k_P : IZR P <= PI * IZR (2 ^ cf c) < IZR P + 1;
  k_sin : forall m, valid c m = true -> m <> (- top c)%Z -> fx_sin c m = Ok (sin_z (2 ^ cf c) P H T TH A B C D m);
  k_pi : pi_v c = Ok P;
  k_acc : forall m, (TH <= Z.abs m)%Z -> Rabs (rval (cf c) (sin_z (2 ^ cf c) P H T TH A B C D m) - sin (rval (cf c) m)) <=
    3.7e-6 + (13.3 + Rabs (rval (cf c) m) / 6) * ulp (cf c);
  k_tiny : forall m, (Z.abs m < TH)%Z ->
    (sin_z (2 ^ cf c) P H T TH A B C D m = m \/ sin_z (2 ^ cf c) P H T TH A B C D m = (- m)%Z) /\
    ((0 <= m)%Z -> sin_z (2 ^ cf c) P H T TH A B C D m = m);
  k_range : forall m, Rabs (rval (cf c) (sin_z (2 ^ cf c) P H T TH A B C D m)) <= 1 + 3.7e-6 + 7.3 * ulp (cf c);
  k_TH : IZR TH <= 0.000151 * IZR (2 ^ cf c);
  k_T : fx_double_pi c = Ok T;
  k_TP : IZR T <= 2 * PI * IZR (2 ^ cf c) < IZR T + 1;
  k_pos : (0 < H /\ 0 < T)%Z;
  k_quot : forall m, (- (4 * 2 ^ cf c + 1) <= Z.quot (Z.rem m T * 2 ^ cf c) H <= 4 * 2 ^ cf c + 1)%Z }.

Lemma g_consts c : sin_cfg c -> exists P H T TH A B C D, sin_consts c P H T TH A B C D.
Proof.
  intros HS. pose proof (g_M c HS) as HM. pose proof (g_top c HS) as HTP. set (M := (2 ^ cf c)%Z) in *.
  assert (R : 8 <= IZR M) by (apply IZR_le; lia).
  assert (H3 : 3.1415 < PI < 3.1416) by (split; interval with (i_prec 60)).
  destruct (g_const c (fx_pi c) PI HS ltac:(left; reflexivity) ltac:(lra)) as (P & EP & BP).
  destruct (g_const c (fx_pi_2 c) (PI / 2) HS ltac:(right; right; left; reflexivity) ltac:(lra)) as (H & EH & BH).
  destruct (g_const c (fx_double_pi c) (2 * PI) HS ltac:(do 4 right; left; reflexivity) ltac:(lra)) as (T & ET & BT).
  destruct (g_threshold c HS) as (TH & ETH & TH0 & BTH).
  destruct (coef c P 24 HS BP ltac:(lia)) as (A & EA & RA & BA). destruct (coef c P 80 HS BP ltac:(lia)) as (B & EB & RB & BB).
  destruct (coef c P 168 HS BP ltac:(lia)) as (C & EC & RC & BC). destruct (coef c P 288 HS BP ltac:(lia)) as (D & ED & RD & BD).
  fold M in BP, BH, BT, BTH, RA, RB, RC, RD, BA, BB, BC, BD.
  assert (EP' : pi_v c = Ok P) by exact EP.
  assert (RP : (3 * M < P < 4 * M)%Z) by (split; apply lt_IZR; rewrite mult_IZR; nra).
  assert (RH : (M <= H <= 2 * M)%Z) by (split; apply le_IZR; rewrite ?mult_IZR; nra).
  assert (RT : (M <= T <= 8 * M)%Z) by (split; apply le_IZR; rewrite ?mult_IZR; nra).
  assert (RTH : (0 <= TH <= M)%Z) by (split; [lia|apply le_IZR; lra]).
  assert (MH : (M < H)%Z) by (apply lt_IZR; nra).
  assert (T4 : (T < 4 * H + 4)%Z) by (apply lt_IZR; rewrite plus_IZR, mult_IZR; lra).
  assert (TH4 : ((T - 1) * M < (4 * M + 2) * H)%Z) by nia.
  assert (HI : 0 < / IZR M) by (apply Rinv_0_lt_compat; lra).
  assert (VP : PI - / IZR M <= IZR P / IZR M <= PI).
  { unfold Rdiv. replace (PI - / IZR M) with ((PI * IZR M - 1) * / IZR M) by (field; lra). replace PI with (PI * IZR M * / IZR M) at 2 by (field; lra).
    split; apply Rmult_le_compat_r; lra. }
  assert (VT : 2 * PI - 1 * / IZR M <= IZR T / IZR M <= 2 * PI).
  { unfold Rdiv. replace (2 * PI - 1 * / IZR M) with ((2 * PI * IZR M - 1) * / IZR M) by (field; lra). replace (2 * PI) with (2 * PI * IZR M * / IZR M) at 2 by (field; lra).
    split; apply Rmult_le_compat_r; lra. }
  assert (E6 : / IZR M <= / 8) by (apply Rinv_le_contravar; lra).
  assert (ET6 : 6 <= IZR T / IZR M) by lra.
  assert (HT2 : Rabs (IZR T / IZR M - 2 * PI) <= 1 * / IZR M) by (apply Rabs_le; lra).
  assert (HH2 : Rabs (IZR M / IZR H - 2 / PI) * (IZR T / IZR M) <= 2.77 * / IZR M).
  { assert (H0 : 1.445 * IZR M <= IZR H) by nra.
    assert (E : IZR M / IZR H - 2 / PI = (PI * IZR M - 2 * IZR H) * / PI * / IZR H) by (field; lra).
    assert (PI0 : 0 < / PI) by (apply Rinv_0_lt_compat; lra).
    assert (HI0 : 0 < / IZR H) by (apply Rinv_0_lt_compat; lra).
    rewrite E, Rabs_pos_eq by (apply Rmult_le_pos; [apply Rmult_le_pos; lra|lra]).
    apply Rle_trans with (2 * / PI * / IZR H * (2 * PI)).
    - apply Rmult_le_compat; [apply Rmult_le_pos; [apply Rmult_le_pos; lra|lra]|lra| |lra].
      apply Rmult_le_compat_r; [lra|]. apply Rmult_le_compat_r; lra.
    - replace (2 * / PI * / IZR H * (2 * PI)) with (4 * / IZR H) by (field; lra).
      apply Rle_trans with (4 * / (1.445 * IZR M)).
      + apply Rmult_le_compat_l; [lra|]. apply Rinv_le_contravar; lra.
      + rewrite Rinv_mult. lra. }
  exists P, H, T, TH, A, B, C, D. constructor; fold M; auto.
  - intros m V N. apply (g_sin_eq c HS P H T TH A B C D); auto; fold M; lia.
  - intros m N.
    pose proof (g_sin_acc c HS P H T TH A B C D EP' EP EA EB EC ED RA RB RC RD RP RH RT TH4 2.77 1 BA BB BC BD VP HH2 HT2 ET6 m N) as X.
    fold M in X. unfold rval, ulp. fold M. eapply Rle_trans; [exact X|].
    set (w := Rabs (IZR m / IZR M)). assert (0 <= w) by apply Rabs_pos.
    assert (PI / 2 * (1 + 2.77) <= 5.93) by lra. nra.
  - intros m N. apply (g_sin_tiny c HS P H T TH A B C D RP RH RT RTH TH4 m N).
  - intros m. pose proof (g_sin_range c HS P H T TH A B C D EP' EP EA EB EC ED RA RB RC RD RP RH RT RTH TH4 BA BB BC BD VP m) as X. exact X.
  - lia.
  - intros m. apply (g_quot_bnd c HS H T); auto.
Qed.

Lemma g_rval_nn c m : sin_cfg c -> 0 <= rval (cf c) m -> (0 <= m)%Z.
Proof.
  intros HS L. pose proof (g_M c HS) as HM. unfold rval in L. set (M := (2 ^ cf c)%Z) in *.
  assert (R : 8 <= IZR M) by (apply IZR_le; lia). apply le_IZR.
  apply Rmult_le_reg_r with (/ IZR M); [apply Rinv_0_lt_compat; lra|]. unfold Rdiv in L. lra.
Qed.
Lemma g_small c m TH : sin_cfg c -> IZR TH <= 0.000151 * IZR (2 ^ cf c) -> (Z.abs m < TH)%Z -> Rabs (rval (cf c) m) <= 0.000151.
Proof.
  intros HS L B. pose proof (g_M c HS) as HM. rewrite rval_abs. unfold rval. set (M := (2 ^ cf c)%Z) in *.
  assert (R : 8 <= IZR M) by (apply IZR_le; lia). apply IZR_lt in B.
  apply Rmult_le_reg_r with (IZR M); [lra|]. unfold Rdiv. rewrite Rmult_assoc, Rinv_l by lra. lra.
Qed.
Lemma g_range_valid c r : sin_cfg c -> Rabs (rval (cf c) r) <= 1 + 3.7e-6 + 7.3 * ulp (cf c) -> valid c r = true /\ (Z.abs r <= 2 * 2 ^ cf c)%Z.
Proof.
  intros HS L. pose proof (g_M c HS) as HM. pose proof (g_top c HS) as HTP. pose proof (g_f c HS) as F.
  assert (Z.abs r <= 2 * 2 ^ cf c)%Z.
  { apply (rv_bound (cf c) r _ _ L); [lia|]. rewrite mult_IZR. unfold ulp. set (M := (2 ^ cf c)%Z) in *.
    assert (R : 8 <= IZR M) by (apply IZR_le; lia).
    replace ((1 + 3.7e-6 + 7.3 * / IZR M) * IZR M) with ((1 + 3.7e-6) * IZR M + 7.3) by (field; lra). lra. }
  split; auto. apply (g_valid c HS). lia.
Qed.

Lemma sin_gen c m : sin_cfg c -> valid c m = true -> (lo (bits (ct c)) true < m)%Z ->
  exists r, fx_sin c m = Ok r /\ valid c r = true /\ Rabs (rval (cf c) r) <= 1 + 3.7e-6 + 7.3 * ulp (cf c) /\
    (0 <= rval (cf c) m -> Rabs (rval (cf c) r - sin (rval (cf c) m)) <= 3.7e-6 + (14 + Rabs (rval (cf c) m) / 6) * ulp (cf c)) /\
    Rabs (rval (cf c) r - sin (rval (cf c) m)) <= 3.1e-4 + (14 + Rabs (rval (cf c) m) / 6) * ulp (cf c).
Proof.
  intros HS V N. destruct (g_consts c HS) as (P & H & T & TH & A & B & C & D & K).
  assert (N' : m <> (- top c)%Z) by (unfold lo in N; unfold top; lia).
  pose proof (k_sin _ _ _ _ _ _ _ _ _ K m V N') as E. pose proof (k_range _ _ _ _ _ _ _ _ _ K m) as RG.
  eexists. split; [exact E|]. split; [apply (g_range_valid c _ HS RG)|]. split; [exact RG|].
  pose proof (Rabs_pos (rval (cf c) m)) as X0. pose proof (ulp_nn (cf c)) as U.
  assert (UX : 0 <= (14 + Rabs (rval (cf c) m) / 6) * ulp (cf c)) by (apply Rmult_le_pos; lra).
  destruct (Z.lt_ge_cases (Z.abs m) TH) as [L|G].
  - destruct (k_tiny _ _ _ _ _ _ _ _ _ K m L) as [E1 E2].
    pose proof (g_small c m TH HS (k_TH _ _ _ _ _ _ _ _ _ K) L) as S.
    split.
    + intros NN. rewrite (E2 (g_rval_nn c m HS NN)). rewrite (Rabs_pos_eq (rval (cf c) m)) in S by auto.
      assert (Rabs (rval (cf c) m - sin (rval (cf c) m)) <= 1e-9) by interval with (i_taylor (rval (cf c) m), i_prec 60). lra.
    + set (r := sin_z _ _ _ _ _ _ _ _ _ m) in *. pose proof (sin_abs_le (rval (cf c) m)) as SA.
      assert (RS : Rabs (rval (cf c) r) = Rabs (rval (cf c) m)) by (destruct E1 as [-> | ->]; [auto|rewrite rval_opp, Rabs_Ropp; auto]).
      pose proof (Rabs_triang (rval (cf c) r) (- sin (rval (cf c) m))) as TR. rewrite Rabs_Ropp in TR. unfold Rminus. lra.
  - pose proof (k_acc _ _ _ _ _ _ _ _ _ K m G) as AC.
    assert (IE : (13.3 + Rabs (rval (cf c) m) / 6) * ulp (cf c) <= (14 + Rabs (rval (cf c) m) / 6) * ulp (cf c)) by (apply Rmult_le_compat_r; lra).
    split; [intros _|]; lra.
Qed.

(** * cos *)
Lemma cos_gen_eq c P m : sin_cfg c -> pi_v c = Ok P -> (3 * 2 ^ cf c < P < 4 * 2 ^ cf c)%Z -> valid c m = true ->
  fx_cos c m = fx_sin c (cos_arg (P / 2) (2 * P - P / 2) m) /\ valid c (cos_arg (P / 2) (2 * P - P / 2) m) = true /\
  (lo (bits (ct c)) true < cos_arg (P / 2) (2 * P - P / 2) m)%Z.
Proof.
  intros HS EP RP V. pose proof (g_M c HS) as HM. pose proof (g_top c HS) as HTP. set (M := (2 ^ cf c)%Z) in *.
  assert (SV : forall k, (- (8 * M) <= k <= 8 * M)%Z -> valid c k = true) by (intros; apply (g_valid c HS); lia).
  pose proof (Z.div_mod P 2 ltac:(lia)) as DM. pose proof (Z.mod_pos_bound P 2 ltac:(lia)) as MB. set (h := (P / 2)%Z) in *.
  pose proof (proj1 (g_valid c HS m) V) as RG.
  assert (VA : valid c (cos_arg h (2 * P - h) m) = true) by (apply (g_valid c HS); unfold cos_arg; destruct (Z.ltb_spec 0 m); lia).
  split; [|split; [exact VA|]].
  2: { unfold lo. unfold top in RG, HTP. unfold cos_arg; destruct (Z.ltb_spec 0 m); lia. }
  unfold fx_cos. rewrite EP. cbn [bind]. rewrite (g_int c HS) by (fold M; apply SV; lia). fold M. cbn [bind].
  assert (E1 : fx_div c P (2 * M) = Ok h).
  { assert (E : Z.quot (P * M) (2 * M) = h) by (rewrite Z.quot_mul_cancel_r by lia; apply Z.quot_div_nonneg; lia).
    rewrite (g_div c HS); fold M; rewrite ?E; auto; try (apply SV; lia). lia. }
  assert (E2 : fx_mul c P (2 * M) = Ok (2 * P)%Z).
  { assert (E : (P * (2 * M) / M = 2 * P)%Z) by (replace (P * (2 * M))%Z with (2 * P * M)%Z by ring; apply Z.div_mul; lia).
    rewrite (g_mul c HS); fold M; rewrite ?E; auto; apply SV; lia. }
  rewrite E1. cbn [bind]. rewrite E2. cbn [bind]. rewrite (g_sub c HS (2 * P) h) by (apply SV; lia). cbn [bind].
  assert (CL : c_lt int32 (ct c) 0 m = (0 <? m)%Z).
  { unfold c_lt. rewrite (g_u' c HS), !wrap_id; auto using (g_t_ok c HS). apply (SV 0%Z). lia. }
  rewrite CL. unfold cos_arg in *. destruct (0 <? m)%Z.
  - rewrite (g_sub c HS) by (auto; apply SV; lia). reflexivity.
  - rewrite (g_add c HS) by (auto; apply SV; lia). reflexivity.
Qed.

Lemma cos_gen c m : sin_cfg c -> valid c m = true ->
  exists r, fx_cos c m = Ok r /\ valid c r = true /\ Rabs (rval (cf c) r) <= 1 + 3.7e-6 + 7.3 * ulp (cf c) /\
    (0.0002 + 2 * ulp (cf c) <= Rabs (cos (rval (cf c) m)) ->
       Rabs (rval (cf c) r - cos (rval (cf c) m)) <= 3.7e-6 + (17 + Rabs (rval (cf c) m) / 6) * ulp (cf c)) /\
    Rabs (rval (cf c) r - cos (rval (cf c) m)) <= 3.1e-4 + (17 + Rabs (rval (cf c) m) / 6) * ulp (cf c).
Proof.
  intros HS V. destruct (g_consts c HS) as (P & H & T & TH & A & B & C & D & K).
  pose proof (g_M c HS) as HM. pose proof (g_f c HS) as F. set (M := (2 ^ cf c)%Z) in *.
  assert (R : 8 <= IZR M) by (apply IZR_le; lia).
  assert (H3 : 3.1415 < PI < 3.1416) by (split; interval with (i_prec 60)).
  pose proof (k_P _ _ _ _ _ _ _ _ _ K) as BP. fold M in BP.
  assert (RP : (3 * M < P < 4 * M)%Z) by (split; apply lt_IZR; rewrite mult_IZR; nra).
  destruct (cos_gen_eq c P m HS (k_pi _ _ _ _ _ _ _ _ _ K) RP V) as (EC & VA & NA).
  pose proof (Z.div_mod P 2 ltac:(lia)) as DM. pose proof (Z.mod_pos_bound P 2 ltac:(lia)) as MB. set (h := (P / 2)%Z) in *.
  assert (HB : IZR P / 2 - / 2 <= IZR h <= IZR P / 2).
  { assert (2 * h <= P <= 2 * h + 1)%Z by lia. destruct H0 as [U1 U2]. apply IZR_le in U1, U2. rewrite plus_IZR in U2. rewrite !mult_IZR in *. lra. }
  assert (HI : 0 < / IZR M <= / 8) by (split; [apply Rinv_0_lt_compat; lra|apply Rinv_le_contravar; lra]).
  assert (D1 : Rabs (rval (cf c) h - PI / 2) <= 1.5 * ulp (cf c)).
  { unfold rval, ulp. fold M. replace (IZR h / IZR M - PI / 2) with ((IZR h - PI * IZR M / 2) * / IZR M) by (field; lra).
    rewrite Rabs_mult, (Rabs_pos_eq (/ IZR M)) by lra. apply Rmult_le_compat_r; [lra|]. apply Rabs_le. lra. }
  assert (D2 : Rabs (rval (cf c) (2 * P - h) - 3 * (PI / 2)) <= 1.5 * ulp (cf c)).
  { unfold rval, ulp. fold M. rewrite minus_IZR, mult_IZR.
    replace ((2 * IZR P - IZR h) / IZR M - 3 * (PI / 2)) with ((2 * IZR P - IZR h - 3 * (PI * IZR M / 2)) * / IZR M) by (field; lra).
    rewrite Rabs_mult, (Rabs_pos_eq (/ IZR M)) by lra. apply Rmult_le_compat_r; [lra|]. apply Rabs_le. lra. }
  pose proof (cos_sin_arg (cf c) h (2 * P - h) m _ ltac:(lia) D1 D2) as CS.
  pose proof (cos_arg_abs (cf c) h (2 * P - h) m ltac:(lia)) as CA.
  set (a := cos_arg h (2 * P - h) m) in *.
  assert (UU : ulp (cf c) = / IZR M) by reflexivity.
  assert (A1 : Rabs (rval (cf c) h) <= 1.77) by (apply Rabs_inv_le in D1; apply Rabs_le; rewrite UU in *; lra).
  assert (A2 : Rabs (rval (cf c) (2 * P - h)) <= 4.91) by (apply Rabs_inv_le in D2; apply Rabs_le; rewrite UU in *; lra).
  assert (AE : (14 + Rabs (rval (cf c) a) / 6) * ulp (cf c) + 1.5 * ulp (cf c) <= (17 + Rabs (rval (cf c) m) / 6) * ulp (cf c)).
  { rewrite <- Rmult_plus_distr_r. apply Rmult_le_compat_r; [rewrite UU; lra|]. lra. }
  destruct (sin_gen c a HS VA NA) as (r & ER & VR & RG & _ & AC).
  exists r. split; [rewrite EC; exact ER|]. split; [exact VR|]. split; [exact RG|].
  assert (N' : a <> (- top c)%Z) by (unfold lo in NA; unfold top; lia).
  pose proof (k_sin _ _ _ _ _ _ _ _ _ K a VA N') as E. rewrite ER in E. injection E as E.
  split.
  - intros CB. assert (G : (TH <= Z.abs a)%Z).
    { destruct (Z.lt_ge_cases (Z.abs a) TH) as [L|G]; [|exact G]. exfalso.
      pose proof (g_small c a TH HS (k_TH _ _ _ _ _ _ _ _ _ K) L) as S. pose proof (sin_abs_le (rval (cf c) a)) as SA.
      pose proof (Rabs_triang (sin (rval (cf c) a)) (- (sin (rval (cf c) a) - cos (rval (cf c) m)))) as TR. rewrite Rabs_Ropp in TR.
      replace (sin (rval (cf c) a) + - (sin (rval (cf c) a) - cos (rval (cf c) m))) with (cos (rval (cf c) m)) in TR by ring.
      rewrite UU in CS, CB. lra. }
    pose proof (k_acc _ _ _ _ _ _ _ _ _ K a G) as AC2. rewrite <- E in AC2.
    assert (IE : (13.3 + Rabs (rval (cf c) a) / 6) * ulp (cf c) <= (14 + Rabs (rval (cf c) a) / 6) * ulp (cf c)) by (apply Rmult_le_compat_r; rewrite ?UU; lra).
    apply Rabs_inv_le in AC2. apply Rabs_inv_le in CS. apply Rabs_le. lra.
  - apply Rabs_inv_le in AC. apply Rabs_inv_le in CS. apply Rabs_le. lra.
Qed.

(** * tan: the quotient of the two *)
Lemma tan_gen c m : sin_cfg c -> valid c m = true -> (lo (bits (ct c)) true < m)%Z ->
  exists s cs, fx_sin c m = Ok s /\ fx_cos c m = Ok cs /\
  ((Z.abs cs <= 1)%Z -> fx_tan c m = Throw domain_error) /\
  ((1 < Z.abs cs)%Z -> valid c (Z.quot (s * 2 ^ cf c) cs) = true -> fx_tan c m = Ok (Z.quot (s * 2 ^ cf c) cs)) /\
  ((1 < Z.abs cs)%Z -> exists r, fx_tan c m = Ok r).
Proof.
  intros HS V N. destruct (sin_gen c m HS V N) as (s & ES & VS & _). destruct (cos_gen c m HS V) as (cs & EC & VC & RG & _).
  destruct (g_range_valid c cs HS RG) as [_ RC]. pose proof (g_M c HS) as HM. pose proof (g_top c HS) as HTP. set (M := (2 ^ cf c)%Z) in *.
  exists s, cs. split; [exact ES|]. split; [exact EC|].
  assert (SV : forall k, (Z.abs k <= 2 * M)%Z -> valid c k = true) by (intros; apply (g_valid c HS); lia).
  assert (CL : c_lt int32 (ct c) 1 (Z.abs cs) = (1 <? Z.abs cs)%Z).
  { unfold c_lt. rewrite (g_u' c HS), !wrap_id; auto using (g_t_ok c HS); apply SV; lia. }
  assert (ET : fx_tan c m = if (1 <? Z.abs cs)%Z then fx_div c s cs else Throw domain_error).
  { unfold fx_tan. rewrite EC. cbn [bind]. rewrite (g_abs c HS) by (auto; apply SV; lia). cbn [bind]. rewrite CL, ES. reflexivity. }
  rewrite ET. split; [|split]; intros L.
  - destruct (Z.ltb_spec 1 (Z.abs cs)); [lia|reflexivity].
  - intros VQ. destruct (Z.ltb_spec 1 (Z.abs cs)); [|lia]. apply (g_div c HS); auto. lia.
  - destruct (Z.ltb_spec 1 (Z.abs cs)); [|lia]. rewrite fx_div_eq by (auto using (g_wf c HS), (g_nr c HS); lia). eexists. reflexivity.
Qed.

(** * outside *)
Definition Q60 : cfg := {| ct := int64; ci := int128; cf := 60; cr := false |}.
Lemma sin_wide : wf Q28 = true /\ wf Q60 = true /\
  fx_sin Q28 (2 ^ 28) = Ok 297100666%Z /\ 0.26 <= rval 28 297100666 - sin 1 /\
  fx_sin Q60 (2 ^ 60) = Ok 1276037643412239332%Z /\ 0.26 <= rval 60 1276037643412239332 - sin 1.
Proof.
  split; [reflexivity|]. split; [reflexivity|]. split; [vm_compute; reflexivity|]. split.
  { unfold rval. change (IZR (2 ^ 28)) with 268435456. interval with (i_prec 60). }
  split; [vm_compute; reflexivity|].
  unfold rval. change (IZR (2 ^ 60)) with 1152921504606846976. interval with (i_prec 60).
Qed.
Lemma cos_unsigned : wf U32 = true /\ fx_cos U32 65536 = Ok 4294906151%Z /\ 65534 <= rval 16 4294906151 - cos 1.
Proof.
  split; [reflexivity|]. split; [vm_compute; reflexivity|]. unfold rval. change (IZR (2 ^ 16)) with 65536. interval with (i_prec 60).
Qed.
