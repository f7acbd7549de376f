(** sqrt in real terms and asin, acos on [-0.7, 0.7] for every signed 64-bit instantiation. *)
From Coq Require Import ZArith Reals Lia Lra Psatz Bool List.
From Interval Require Import Tactic.
From Verif Require Import Base Fixed Math Spec SpecReal BaseLemmas FixedLemmas CLemmas InspectProofs MathProofs NewtonProofs PowProofs RealLemmas
  StdProofs SinPoly SinProofs SinThms AtanProofs AsinProofs AsinAcc SinGen SinGen2 AtanGen AngleGen SqrtGen.
Open Scope R_scope.

Section GEN.
Variable c : cfg.
Hypothesis HS : sin_cfg c.
Hypothesis HB : bits (ct c) = 64%Z.
Let f := cf c.
Let M := (2 ^ cf c)%Z.
Let u := ulp (cf c).
Lemma a_R : 8 <= IZR M. Proof using HS. apply IZR_le. apply (g_M c HS). Qed.
Lemma a_u : 0 < u <= / 8 /\ u * IZR M = 1 /\ forall z, rval f z = IZR z * u.
Proof using HS.
  pose proof a_R as R. assert (U : u = / IZR M) by reflexivity. rewrite U.
  split; [split; [apply Rinv_0_lt_compat; lra|apply Rinv_le_contravar; lra]|]. split; [apply Rinv_l; lra|]. intros; reflexivity.
Qed.
Theorem sqrt_gen64_real m : (0 < m)%Z -> (m < 2 ^ 62 \/ m < 2 ^ 63 /\ Z.odd f = true)%Z ->
  exists r, fx_sqrt c m = Ok r /\ valid c r = true /\ (0 < r)%Z /\
    sqrt (rval f m) - u < rval f r /\ - (2 * u * sqrt (rval f m)) <= rval f r * rval f r - rval f m /\
    rval f r * rval f r - rval f m <= 5 / 65536 + u + 4 * u * (sqrt (rval f m) + u) + 5e-16 * rval f m.
Proof using HS HB.
  intros Hm0 Hm. destruct (sqrt_gen64 c HS HB m Hm0 Hm) as (r & E & R & [N1 N2] & C). fold M in N1, N2, C.
  pose proof (g_M c HS) as HM. fold M in HM. destruct a_u as (U & UM & RV). pose proof a_R as RM.
  assert (Vr : valid c r = true) by (apply (g_valid c HS); rewrite (q_top c HB); change (2 ^ 63)%Z with (2 * 2 ^ 62)%Z; lia).
  exists r. split; [exact E|]. split; [exact Vr|]. split; [lia|].
  pose proof (Z.sqrt_spec (m * M) ltac:(lia)) as [LS US]. set (S := Z.sqrt (m * M)) in *. change (Z.succ S) with (S + 1)%Z in US.
  assert (S0 : (0 <= S)%Z) by apply Z.sqrt_nonneg.
  apply IZR_le in LS. apply IZR_lt in US. rewrite !mult_IZR in LS, US. rewrite plus_IZR in US.
  assert (X0 : 0 < rval f m) by (rewrite RV; apply Rmult_lt_0_compat; [apply IZR_lt; lia|lra]).
  assert (XE : rval f m = IZR m * IZR M * (u * u)). { rewrite RV. replace (IZR m * IZR M * (u * u)) with (IZR m * u * (u * IZR M)) by ring. rewrite UM. ring. }
  set (X := rval f m) in *. set (s := sqrt X). assert (SS : s * s = X) by (apply sqrt_sqrt; lra). assert (Ps : 0 < s) by (apply sqrt_lt_R0; lra).
  apply IZR_le in S0.
  assert (UU : 0 < u * u) by (apply Rmult_lt_0_compat; lra).
  assert (L1 : IZR S * u <= s).
  { apply Rsqr_incr_0_var; [|lra]. unfold Rsqr. rewrite SS, XE. replace (IZR S * u * (IZR S * u)) with (IZR S * IZR S * (u * u)) by ring. apply Rmult_le_compat_r; lra. }
  assert (L2 : s < (IZR S + 1) * u).
  { apply Rsqr_incrst_0; [|lra|apply Rmult_le_pos; lra]. unfold Rsqr. rewrite SS, XE.
    replace ((IZR S + 1) * u * ((IZR S + 1) * u)) with ((IZR S + 1) * (IZR S + 1) * (u * u)) by ring. apply Rmult_lt_compat_r; lra. }
  assert (L3 : IZR S * u <= rval f r) by (rewrite RV; apply Rmult_le_compat_r; [lra|apply IZR_le; lia]).
  assert (SU : u <= s).
  { apply Rsqr_incr_0_var; [|lra]. unfold Rsqr. rewrite SS. unfold X. rewrite RV. apply Rle_trans with (1 * u); [|apply Rmult_le_compat_r; [lra|apply IZR_le; lia]]. clear - U. nra. }
  split; [lra|]. assert (L4 : s - u <= rval f r) by lra. split.
  { assert ((s - u) * (s - u) <= rval f r * rval f r) by (apply Rmult_le_compat; lra). clear - H SS UU. nra. }
  assert (P5 : 0 <= 4 * u * (s + u)) by (clear - U Ps; nra).
  destruct C as [C|C].
  - assert (HF : (r * r <= m * M + farg c m r * M + M)%Z).
    { unfold farg. fold M. pose proof (Z.div_mod (r * r) M ltac:(lia)). pose proof (Z.mod_pos_bound (r * r) M ltac:(lia)). clear - H H0 HM. nia. }
    assert (HG : (65536 * (r * r) <= 65536 * (m * M) + 5 * (M * M) + 65536 * M)%Z) by (clear - C HF HM; nia).
    apply IZR_le in HG. rewrite !plus_IZR, !mult_IZR in HG.
    assert (HH : 65536 * (IZR r * IZR r) * (u * u) <= (65536 * (IZR m * IZR M) + 5 * (IZR M * IZR M) + 65536 * IZR M) * (u * u)) by (apply Rmult_le_compat_r; lra).
    rewrite RV. replace (IZR r * u * (IZR r * u)) with (IZR r * IZR r * (u * u)) by ring.
    replace ((65536 * (IZR m * IZR M) + 5 * (IZR M * IZR M) + 65536 * IZR M) * (u * u))
      with (65536 * (IZR m * IZR M * (u * u)) + 5 * ((u * IZR M) * (u * IZR M)) + 65536 * (u * (u * IZR M))) in HH by ring.
    rewrite UM, <- XE in HH. lra.
  - apply IZR_le in C. rewrite mult_IZR, minus_IZR, plus_IZR in C.
    assert (D : rval f r <= s + (s / 5000000000000000 + 1.35 * u)).
    { rewrite RV. assert (IZR r * u <= (IZR S + (IZR S + 6750000000000000) / 5000000000000000) * u) by (apply Rmult_le_compat_r; lra). lra. }
    assert (D2 : rval f r * rval f r <= (s + (s / 5000000000000000 + 1.35 * u)) * (s + (s / 5000000000000000 + 1.35 * u))) by (apply Rmult_le_compat; lra).
    assert (EX : (s + (s / 5000000000000000 + 1.35 * u)) * (s + (s / 5000000000000000 + 1.35 * u)) =
      (1 + / 5000000000000000) * (1 + / 5000000000000000) * (s * s) + 2.7 * (1 + / 5000000000000000) * (u * s) + 1.8225 * (u * u)) by (clear; lra).
    rewrite EX in D2.
    rewrite SS in D2. assert (0 < u * s) by (apply Rmult_lt_0_compat; lra). lra.
Qed.
Lemma a_pi : exists P, pi_v c = Ok P /\ (0 <= P <= 4 * M)%Z /\ PI - u < rval f P <= PI.
Proof using HS. destruct (pi_of c HS) as (P & A & B & C). exists P. split; auto. split; [unfold M; lia|auto]. Qed.
Lemma a_sv k : (- (8 * M) <= k <= 8 * M)%Z -> valid c k = true.
Proof using HS. intros. apply (g_valid c HS). pose proof (g_top c HS) as A. pose proof (g_M c HS) as B. fold M in A, B. lia. Qed.
Lemma a_int k : (-8 <= k <= 8)%Z -> fx_of_int c k = Ok (k * M)%Z.
Proof using HS. intros. pose proof (g_M c HS) as HM. fold M in HM. apply (g_int c HS). apply a_sv. fold M. nia. Qed.
Lemma a_in m : (Z.abs m < M)%Z -> fx_asin c m =
  (let* p := fx_mul c m m in let* d := fx_sub c M p in let* s := fx_sqrt c d in let* q := fx_div c m s in fx_atan c q).
Proof using HS.
  intros L. pose proof (g_M c HS) as HM. fold M in HM. destruct a_pi as (P & EP & RP & _).
  unfold fx_asin. rewrite EP. cbn [bind]. rewrite (g_abs c HS) by (apply a_sv; lia). cbn [bind]. rewrite !a_int by lia. cbn [bind].
  rewrite (g_gt c HS) by (apply a_sv; lia). rewrite !(fx_eq_eq c (g_wf c HS)) by (apply a_sv; lia).
  replace (1 * M <? Z.abs m)%Z with false by (clear - L; lia).
  replace (m =? 1 * M)%Z with false by (clear - L; lia). replace (m =? -1 * M)%Z with false by (clear - L; lia).
  rewrite Z.mul_1_l. reflexivity.
Qed.
Lemma a_cos m a : (Z.abs m < M)%Z -> m <> 0%Z -> fx_asin c m = Ok a ->
  fx_acos c m = (let* pi := pi_v c in let* h := fx_div_int c int32 pi 2 in fx_sub c h a).
Proof using HS.
  intros L N E. pose proof (g_M c HS) as HM. fold M in HM. destruct a_pi as (P & EP & RP & _).
  unfold fx_acos. rewrite EP. cbn [bind]. rewrite (g_abs c HS) by (apply a_sv; lia). cbn [bind]. rewrite !a_int by lia. cbn [bind].
  rewrite (g_gt c HS) by (apply a_sv; lia). rewrite !(fx_eq_eq c (g_wf c HS)) by (apply a_sv; lia).
  replace (1 * M <? Z.abs m)%Z with false by (clear - L; lia).
  replace (m =? 1 * M)%Z with false by (clear - L; lia). replace (m =? -1 * M)%Z with false by (clear - L; lia).
  replace (m =? 0 * M)%Z with false by (clear - N; lia). rewrite E. reflexivity.
Qed.
Lemma a_abs m : Rabs (rval f m) <= 0.7 -> (Z.abs m < M)%Z.
Proof using HS.
  intros HX. destruct a_u as (U & UM & RV). pose proof a_R as R.
  apply lt_IZR. rewrite abs_IZR. rewrite RV, Rabs_mult, (Rabs_pos_eq u) in HX by lra.
  apply Rmult_lt_reg_r with u; [lra|]. rewrite (Rmult_comm (IZR M)), UM. lra.
Qed.
Lemma a_quot m s d : Rabs (rval f m) <= 0.7 -> fx_sqrt c (M - m * m / M) = Ok s -> valid c s = true -> (0 < s)%Z ->
  Rabs (rval f s * rval f s - rval f (M - m * m / M)) <= d -> d + u <= 0.001 ->
  exists q, fx_asin c m = fx_atan c q /\ fx_asin c (- m) = fx_atan c (- q) /\ Rabs (rval f q) <= 1 /\ (Z.abs q <= M)%Z /\ Rabs (rval f q - rval f m / sqrt (1 - (rval f m)²)) <= d + 2 * u.
Proof using HS.
  intros HX ES Vs Ps Hd D. pose proof a_R as R. pose proof (g_M c HS) as HM. fold M in HM. destruct a_u as (U & UM & RV).
  pose proof (a_abs m HX) as Lm.
  assert (P : (0 <= m * m / M < M)%Z) by (split; [apply Z.div_pos; nia|apply Z.div_lt_upper_bound; nia]).
  rewrite (a_in m Lm), (a_in (- m)%Z) by lia.
  assert (MM : fx_mul c (- m) (- m) = fx_mul c m m).
  { rewrite !(g_mul c HS) by (apply a_sv; fold M; replace (- m * - m)%Z with (m * m)%Z by ring; lia). do 2 f_equal. ring. }
  rewrite MM, (g_mul c HS) by (apply a_sv; fold M; lia). rewrite !bind_Ok'. fold M.
  rewrite (g_sub c HS) by (apply a_sv; lia). rewrite !bind_Ok', ES, !bind_Ok'.
  set (q := Z.quot (m * M) s). exists q.
  assert (DD : Rabs (rval f s * rval f s - (1 - rval f m * rval f m)) <= d + u).
  { pose proof (div_real (m * m) M ltac:(lia)) as [Q1 Q2]. rewrite (RV (M - m * m / M)%Z), minus_IZR in Hd. rewrite mult_IZR in Q1, Q2.
    set (k := IZR (m * m / M)) in *. rewrite (RV m).
    assert (EU : u = / IZR M) by reflexivity.
    assert (I1 : IZR m * u * (IZR m * u) = IZR m * IZR m / IZR M * u) by (rewrite EU; unfold Rdiv; ring). rewrite I1.
    set (w := IZR m * IZR m / IZR M) in *. replace (1 - w * u) with ((IZR M - k) * u - (w - k) * u) by (rewrite <- UM; ring).
    apply Rabs_inv_le in Hd. apply Rabs_le. assert (0 <= (w - k) * u <= u) by (clear - Q1 Q2 U; nra). lra. }
  assert (PS : 0 < rval f s) by (rewrite RV; apply Rmult_lt_0_compat; [apply IZR_lt; auto|lra]).
  destruct (ratio_close _ _ _ HX PS DD D) as (C1 & C2).
  assert (QQ : Rabs (rval f q - rval f m / rval f s) < u).
  { pose proof (quot_real (m * M) s ltac:(lia)) as K. fold q in K. rewrite mult_IZR in K. rewrite !RV.
    assert (Q : 0 < IZR s) by (apply IZR_lt; auto).
    replace (IZR q * u - IZR m * u / (IZR s * u)) with ((IZR q - IZR m * IZR M / IZR s) * u).
    - rewrite Rabs_mult, (Rabs_pos_eq u) by lra. rewrite <- (Rmult_1_l u) at 2. apply Rmult_lt_compat_r; lra.
    - rewrite Rmult_minus_distr_r. f_equal. replace (IZR m * IZR M / IZR s * u) with (IZR m / IZR s * (u * IZR M)) by (field; lra).
      rewrite UM. field. split; lra. }
  assert (Q1 : Rabs (rval f q) <= 1).
  { replace (rval f q) with (rval f q - rval f m / rval f s + rval f m / rval f s) by ring.
    eapply Rle_trans; [apply Rabs_triang|]. pose proof (Rle_trans _ _ _ (Rabs_pos _) Hd). lra. }
  assert (Lq : (Z.abs q <= M)%Z).
  { rewrite RV, Rabs_mult, (Rabs_pos_eq u) in Q1 by lra. apply le_IZR. rewrite abs_IZR. apply Rmult_le_reg_r with u; [lra|]. rewrite (Rmult_comm (IZR M)), UM. exact Q1. }
  split; [|split; [|split; [exact Q1|split; [exact Lq|]]]].
  2:{ assert (EQ : Z.quot (- m * M) s = (- q)%Z) by (unfold q; rewrite Z.mul_opp_l, Z.quot_opp_l by lia; reflexivity).
      rewrite (g_div c HS); [fold M; rewrite EQ; reflexivity|apply a_sv; lia|exact Vs|lia|fold M; rewrite EQ; apply a_sv; lia]. }
  - rewrite (g_div c HS); [fold M; fold q; reflexivity|apply a_sv; lia|exact Vs|lia|fold M; fold q; apply a_sv; lia].
  - replace (rval f q - rval f m / sqrt (1 - (rval f m)²)) with (rval f q - rval f m / rval f s + (rval f m / rval f s - rval f m / sqrt (1 - (rval f m)²))) by ring.
    eapply Rle_trans; [apply Rabs_triang|]. lra.
Qed.
Theorem asin_gen64 m : (13 <= f)%Z -> Rabs (rval f m) <= 0.7 ->
  exists r, fx_asin c m = Ok r /\ valid c r = true /\ (Z.abs r <= M)%Z /\ fx_asin c (- m) = Ok (- r)%Z /\ Rabs (rval f r - asin (rval f m)) <= 3.5e-4 + 18 * u.
Proof using HS HB.
  intros F13 HX. pose proof a_R as R. pose proof (g_M c HS) as HM. fold M in HM. pose proof (g_f c HS) as F. destruct a_u as (U & UM & RV).
  pose proof (a_abs m HX) as Lm.
  assert (M13 : (8192 <= M)%Z) by (unfold M; change 8192%Z with (2 ^ 13)%Z; apply Z.pow_le_mono_r; unfold f in *; lia).
  assert (M59 : (M <= 2 ^ 59)%Z) by (unfold M; apply Z.pow_le_mono_r; lia).
  assert (U13 : u <= / 8192) by (apply Rinv_le_contravar; [lra|apply IZR_le; exact M13]).
  assert (P : (0 <= m * m / M < M)%Z) by (split; [apply Z.div_pos; nia|apply Z.div_lt_upper_bound; nia]).
  set (d := (M - m * m / M)%Z).
  assert (Hd : (0 < d < 2 ^ 62)%Z) by (unfold d; change (2 ^ 62)%Z with (8 * 2 ^ 59)%Z; lia).
  destruct (sqrt_gen64_real d (proj1 Hd) (or_introl (proj2 Hd))) as (s & E & Vs & Ps & _ & B1 & B2).
  assert (X1 : 0 < rval f d <= 1).
  { rewrite RV. split; [apply Rmult_lt_0_compat; [apply IZR_lt; lia|lra]|]. rewrite <- UM, (Rmult_comm u). apply Rmult_le_compat_r; [lra|apply IZR_le; unfold d; lia]. }
  assert (X2 : 0 <= sqrt (rval f d) <= 1) by (split; [apply sqrt_pos|rewrite <- sqrt_1; apply sqrt_le_1_alt; lra]).
  set (dd := 5 / 65536 + 5e-16 + 5.001 * u).
  assert (ER : Rabs (rval f s * rval f s - rval f d) <= dd).
  { apply Rabs_le. unfold dd. set (t := sqrt (rval f d)) in *. clearbody t.
    assert (T1 : 0 <= u * t <= u) by (clear - U X2; nra). assert (T2 : 0 <= u * u <= / 8192 * u) by (clear - U U13; nra).
    split; lra. }
  destruct (a_quot m s dd HX E Vs Ps ER ltac:(unfold dd; lra)) as (q & Q1 & Q1' & Q2 & Q3 & Q4).
  destruct (atan_gen c q HS Q3) as (r & R1 & R2 & R3 & R5 & _ & R4).
  exists r. rewrite Q1. split; [exact R1|]. split; [exact R2|]. split; [exact R3|]. split; [rewrite Q1'; exact R5|]. rewrite asin_atan by (apply rin; exact HX).
  replace (rval f r - atan (rval f m / sqrt (1 - (rval f m)²))) with
    (rval f r - atan (rval f q) + (atan (rval f q) - atan (rval f m / sqrt (1 - (rval f m)²)))) by ring.
  eapply Rle_trans; [apply Rabs_triang|]. pose proof (atan_lip (rval f q) (rval f m / sqrt (1 - (rval f m)²))).
  fold u in R4. fold f in R4. unfold dd in Q4. lra.
Qed.
Theorem acos_gen64 m : (13 <= f)%Z -> Rabs (rval f m) <= 0.7 ->
  exists r, fx_acos c m = Ok r /\ valid c r = true /\ Rabs (rval f r - acos (rval f m)) <= 3.5e-4 + 20 * u.
Proof using HS HB.
  intros F13 HX. rewrite acos_asin by (apply rin in HX; lra). pose proof a_R as R. pose proof (g_M c HS) as HM. fold M in HM. destruct a_u as (U & UM & RV).
  destruct a_pi as (P & EP & RP & BP).
  assert (EQ : Z.quot P 2 = (P / 2)%Z) by (apply Z.quot_div_nonneg; lia).
  assert (PH : (0 <= P / 2 <= 2 * M)%Z) by (split; [apply Z.div_pos; lia|apply Z.div_le_upper_bound; lia]).
  assert (HP : PI / 2 - 2 * u <= rval f (P / 2) <= PI / 2).
  { pose proof (div_real P 2 ltac:(lia)) as [A B]. rewrite (RV P) in BP. rewrite RV.
    assert (IZR P * u / 2 - u <= IZR (P / 2) * u <= IZR P * u / 2) by (clear - A B U; nra). lra. }
  destruct (Z.eq_dec m 0) as [->|N].
  { assert (EV : fx_acos c 0 = Ok (P / 2)%Z).
    { unfold fx_acos. rewrite EP. cbn [bind]. rewrite (g_abs c HS) by (apply a_sv; lia). cbn [bind]. rewrite !a_int by lia. cbn [bind].
      rewrite (g_gt c HS) by (apply a_sv; lia). rewrite !(fx_eq_eq c (g_wf c HS)) by (apply a_sv; lia).
      replace (1 * M <? Z.abs 0)%Z with false by (change (Z.abs 0) with 0%Z; lia).
      replace (0 =? 1 * M)%Z with false by lia. replace (0 =? -1 * M)%Z with false by lia. replace (0 =? 0 * M)%Z with true by lia.
      assert (EQ2 : Z.quot (P * M) (2 * M) = (P / 2)%Z) by (rewrite Z.quot_mul_cancel_r by lia; exact EQ).
      rewrite (g_div c HS); [fold M; rewrite EQ2; reflexivity|apply a_sv; lia|apply a_sv; lia|lia|fold M; rewrite EQ2; apply a_sv; lia]. }
    exists (P / 2)%Z. split; [exact EV|]. split; [apply a_sv; lia|].
    replace (rval f 0) with 0 by (rewrite RV; ring). rewrite asin_0. apply Rabs_le. lra. }
  destruct (asin_gen64 m F13 HX) as (a & E & V & La & _ & A).
  rewrite (a_cos m a (a_abs m HX) N E). rewrite EP, bind_Ok'.
  rewrite (g_div_int c HS) by (try apply a_sv; lia). rewrite bind_Ok', EQ.
  rewrite (g_sub c HS) by (apply a_sv; lia). exists (P / 2 - a)%Z. split; [reflexivity|]. split; [apply a_sv; lia|].
  replace (rval f (P / 2 - a)) with (rval f (P / 2) - rval f a) by (rewrite !RV, minus_IZR; ring).
  set (y := asin (rval f m)) in *. apply Rabs_inv_le in A. apply Rabs_le. lra.
Qed.
End GEN.
(** int32_t stores take the other square root, which is right at 16 fraction bits only *)
Definition Q20 : cfg := {| ct := int32; ci := int64; cf := 20; cr := false |}.
Definition Q12 : cfg := {| ct := int32; ci := int64; cf := 12; cr := false |}.
Lemma asin_width : wf Q20 = true /\ wf Q12 = true /\
  fx_asin Q20 (2 ^ 19) = Ok 232391357%Z /\ 221 <= rval 20 232391357 - asin (rval 20 (2 ^ 19)) /\
  fx_acos Q20 (2 ^ 19) = Ok (-230744258)%Z /\ 221 <= acos (rval 20 (2 ^ 19)) - rval 20 (-230744258) /\
  fx_asin Q12 (2 ^ 11) = Ok 146%Z /\ 0.48 <= asin (rval 12 (2 ^ 11)) - rval 12 146.
Proof.
  assert (A20 : rval 20 (2 ^ 19) = / 2) by (unfold rval; change (IZR (2 ^ 20)) with 1048576; change (IZR (2 ^ 19)) with 524288; field).
  assert (A12 : rval 12 (2 ^ 11) = / 2) by (unfold rval; change (IZR (2 ^ 12)) with 4096; change (IZR (2 ^ 11)) with 2048; field).
  assert (B : asin (/ 2) = PI / 6).
  { replace (/ 2) with (sin (PI / 6)) by (rewrite sin_PI6; field). apply asin_sin. pose proof PI_RGT_0. lra. }
  rewrite A20, A12, acos_asin, B by lra. unfold rval. change (IZR (2 ^ 20)) with 1048576. change (IZR (2 ^ 12)) with 4096.
  repeat split; try (vm_compute; reflexivity); interval.
Qed.
