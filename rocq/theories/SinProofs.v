(** sin and cos: integer form, definedness, accuracy. *)
From Coq Require Import ZArith Reals Lia Lra Psatz Bool.
From Interval Require Import Tactic.
From Verif Require Import Base Fixed Math Spec SpecReal BaseLemmas FixedLemmas CLemmas MathProofs PowProofs RealLemmas StdProofs SinPoly.
Open Scope R_scope.

(** ** Facts about the real sine *)
Lemma sin_abs_le x : Rabs (sin x) <= Rabs x.
Proof.
  assert (P : forall y, 0 < y -> Rabs (sin y) <= y).
  { intros y Hy. destruct (Rle_lt_dec y 1) as [L|L].
    - rewrite Rabs_pos_eq; [left; apply sin_lt_x; auto|]. apply sin_ge_0; [lra|]. assert (3 < PI) by interval with (i_prec 60). lra.
    - pose proof (SIN_bound y). apply Rabs_le. lra. }
  destruct (Rtotal_order x 0) as [L|[E|G]].
  - rewrite <- (Ropp_involutive x) at 1. rewrite sin_neg, Rabs_Ropp. rewrite (Rabs_left x) by lra. apply P. lra.
  - subst. rewrite sin_0. lra.
  - rewrite (Rabs_right x) by lra. apply P. lra.
Qed.
Lemma sin_lip a b : Rabs (sin a - sin b) <= Rabs (a - b).
Proof.
  rewrite form4, !Rabs_mult. rewrite (Rabs_pos_eq 2) by lra.
  assert (Rabs (cos ((a + b) / 2)) <= 1) by (apply Rabs_le; apply COS_bound).
  pose proof (sin_abs_le ((a - b) / 2)) as H2.
  assert (E : Rabs ((a - b) / 2) = Rabs (a - b) / 2) by (unfold Rdiv; rewrite Rabs_mult, (Rabs_pos_eq (/ 2)) by lra; reflexivity).
  rewrite E in H2. pose proof (Rabs_pos (sin ((a - b) / 2))). pose proof (Rabs_pos (cos ((a + b) / 2))).
  pose proof (Rabs_pos (a - b)). nra.
Qed.
Lemma sin_2kpi x (k : Z) : sin (x + 2 * IZR k * PI) = sin x.
Proof.
  destruct k as [|p|p].
  - f_equal. ring.
  - rewrite <- (positive_nat_Z p), <- INR_IZR_INZ. apply sin_period.
  - replace (IZR (Z.neg p)) with (- INR (Pos.to_nat p)).
    + rewrite <- (sin_period _ (Pos.to_nat p)). f_equal. ring.
    + rewrite INR_IZR_INZ, positive_nat_Z. change (Z.neg p) with (- Z.pos p)%Z. rewrite opp_IZR. reflexivity.
Qed.

Section SIN.
Variable c : cfg.
Hypothesis HS : std c.
Variables P H T TH A B C D : Z.
Let M := (2 ^ cf c)%Z.
Hypothesis HP : pi_v c = Ok P.
Hypothesis HP' : fx_pi c = Ok P.
Hypothesis HH : fx_pi_2 c = Ok H.
Hypothesis HT : fx_double_pi c = Ok T.
Hypothesis HTH : sin_threshold c = Ok TH.
Hypothesis HA : (let* p := fx_mul c P P in fx_div_int c int32 p 24) = Ok A.
Hypothesis HB : (let* p := fx_mul c P P in fx_div_int c int32 p 80) = Ok B.
Hypothesis HC : (let* p := fx_mul c P P in fx_div_int c int32 p 168) = Ok C.
Hypothesis HD : (let* p := fx_mul c P P in fx_div_int c int32 p 288) = Ok D.
Hypothesis RA : (0 <= A <= M)%Z.
Hypothesis RB : (0 <= B <= M)%Z.
Hypothesis RC : (0 <= C <= M)%Z.
Hypothesis RD : (0 <= D <= M)%Z.
Hypothesis RP : (0 <= P <= 4 * M)%Z.
Hypothesis RH : (M <= H <= 2 * M)%Z.
Hypothesis RT : (M <= T <= 8 * M)%Z.
Hypothesis RTH : (0 <= TH <= M)%Z.
Hypothesis TH4 : ((T - 1) * M < (4 * M + 1) * H)%Z.

Definition sin_quad (M H T fp : Z) : Z :=
  let x2 := Z.quot (Z.rem fp T * M) H in if (x2 <? 0)%Z then (x2 + 4 * M)%Z else x2.
Definition sin_neg_z (M H T fp : Z) : bool := (2 * M <? sin_quad M H T fp)%Z.
Definition sin_red (M H T fp : Z) : Z :=
  let x3 := sin_quad M H T fp in
  let x4 := if sin_neg_z M H T fp then (x3 - 2 * M)%Z else x3 in
  if (M <? x4)%Z then (2 * M - x4)%Z else x4.
Definition sin_z (M P H T TH A B C D fp : Z) : Z :=
  let neg := sin_neg_z M H T fp in
  let r := if (Z.abs fp <? TH)%Z then fp else sin_poly_z M P A B C D (sin_red M H T fp) in
  if neg then (- r)%Z else r.

Lemma rem_bnd fp : (- T < Z.rem fp T < T)%Z.
Proof. pose proof (std_M c HS) as HM. fold M in HM. pose proof (Z.rem_bound_abs fp T ltac:(lia)). lia. Qed.
Lemma quot_bnd fp : (- (4 * M) <= Z.quot (Z.rem fp T * M) H <= 4 * M)%Z.
Proof.
  pose proof (rem_bnd fp) as R. pose proof (std_M c HS) as HM. fold M in HM.
  assert (Z.abs (Z.quot (Z.rem fp T * M) H) < 4 * M + 1)%Z; [|lia].
  rewrite <- Z.quot_abs by lia. rewrite (Z.abs_eq H) by lia.
  apply Z.quot_lt_upper_bound; try lia. rewrite Z.abs_mul, (Z.abs_eq M) by lia.
  apply Z.le_lt_trans with ((T - 1) * M)%Z; [apply Z.mul_le_mono_nonneg_r; lia|lia].
Qed.
Lemma sin_quad_bnd fp : (0 <= sin_quad M H T fp <= 4 * M)%Z.
Proof. pose proof (quot_bnd fp). unfold sin_quad. cbv zeta. destruct (Z.ltb_spec (Z.quot (Z.rem fp T * M) H) 0); lia. Qed.
Lemma sin_red_bnd fp : (0 <= sin_red M H T fp <= M)%Z.
Proof.
  pose proof (sin_quad_bnd fp). unfold sin_red, sin_neg_z. cbv zeta.
  destruct (Z.ltb_spec (2 * M) (sin_quad M H T fp)); [destruct (Z.ltb_spec M (sin_quad M H T fp - 2 * M))|destruct (Z.ltb_spec M (sin_quad M H T fp))]; lia.
Qed.

Lemma sin_eq fp : valid c fp = true -> fp <> (- (M * M / 2))%Z ->
  fx_sin c fp = Ok (sin_z M P H T TH A B C D fp).
Proof using HS HP HP' HH HT HTH HA HB HC HD RA RB RC RD RP RH RT RTH TH4.
  intros V NM. pose proof (std_M c HS) as HM. fold M in HM.
  pose proof (std_wf c HS) as W. pose proof (std_nr c HS) as NR.
  pose proof (rem_bnd fp) as R1. pose proof (quot_bnd fp) as R2.
  assert (SV : forall k, (- (8 * M) <= k <= 8 * M)%Z -> valid c k = true).
  { intros k Hk. apply std_valid; auto. fold M. clear - HM Hk. nia. }
  assert (SP : exists k, sin_poly c (sin_red M H T fp) = Ok k /\ k = sin_poly_z M P A B C D (sin_red M H T fp)).
  { eexists. split; [|reflexivity]. apply sin_poly_eq; auto. apply sin_red_bnd. }
  destruct SP as (pl & SP & EP).
  unfold fx_sin. rewrite HT. cbn [bind].
  assert (E1 : fx_rem_assign c fp T = Ok (Z.rem fp T)).
  { change (fx_rem_assign c fp T) with (fx_rem c fp T). rewrite fx_rem_eq by (auto; apply SV; lia).
    replace (T =? 0)%Z with false by (clear - RT HM; lia).
    assert (Q : valid c (Z.quot fp T) = true).
    { apply std_valid; auto. fold M. apply (std_valid c HS) in V. fold M in V.
      assert (Z.abs (Z.quot fp T) * M <= Z.abs fp)%Z.
      { rewrite <- Z.quot_abs by lia. rewrite (Z.abs_eq T) by lia.
        pose proof (Z.mul_quot_le (Z.abs fp) T ltac:(lia) ltac:(lia)). pose proof (Z.quot_pos (Z.abs fp) T ltac:(lia) ltac:(lia)). nia. }
      clear - H0 V HM. nia. }
    rewrite Q. rewrite andb_false_r. reflexivity. }
  rewrite E1. cbn [bind]. rewrite HH. cbn [bind].
  assert (E2 : fx_div_assign c (Z.rem fp T) H = Ok (Z.quot (Z.rem fp T * M) H)).
  { transitivity (fx_div c (Z.rem fp T) H); [unfold fx_div_assign, fx_div; rewrite NR; reflexivity|].
    apply s_div; auto; fold M; try (apply SV; lia). lia. }
  rewrite E2. cbn [bind]. set (x2 := Z.quot (Z.rem fp T * M) H) in *.
  rewrite !s_int by (auto; apply SV; fold M; lia). fold M. cbn [bind].
  replace (0 * M)%Z with 0%Z by lia. replace (1 * M)%Z with M by lia.
  rewrite s_lt by (auto; apply SV; lia).
  assert (E3 : (if (x2 <? 0)%Z then fx_add_assign c x2 (4 * M) else Ok x2) = Ok (sin_quad M H T fp)).
  { unfold sin_quad. fold x2. cbv zeta. destruct (Z.ltb_spec x2 0); auto.
    change (fx_add_assign c x2 (4 * M)) with (fx_add c x2 (4 * M)). apply s_add; auto; apply SV; lia. }
  rewrite E3. cbn [bind]. pose proof (sin_quad_bnd fp) as R3. rewrite s_gt by (auto; apply SV; lia).
  fold (sin_neg_z M H T fp). change (fx_sub_assign c) with (fx_sub c).
  set (x4 := if sin_neg_z M H T fp then (sin_quad M H T fp - 2 * M)%Z else sin_quad M H T fp).
  assert (R4 : (0 <= x4 <= 2 * M)%Z).
  { unfold x4, sin_neg_z. destruct (Z.ltb_spec (2 * M) (sin_quad M H T fp)); lia. }
  assert (E4 : (if sin_neg_z M H T fp then fx_sub c (sin_quad M H T fp) (2 * M) else Ok (sin_quad M H T fp)) = Ok x4).
  { unfold x4. revert R4. unfold x4, sin_neg_z. destruct (Z.ltb_spec (2 * M) (sin_quad M H T fp)); intros; auto.
    apply s_sub; auto; apply SV; lia. }
  rewrite E4. cbn [bind]. rewrite HTH. cbn [bind].
  assert (VN : forall k, (Z.abs k <= Z.abs fp)%Z -> valid c k = true).
  { intros k Hk. apply (std_valid c HS) in V. apply (std_valid c HS). fold M in V |- *.
    assert (E : (M * M = 2 * (M * M / 2))%Z).
    { apply Z.div_exact; [lia|]. unfold M. rewrite <- Z.pow_add_r by (pose proof (std_f c HS); lia).
      destruct HS as [-> | ->]; reflexivity. }
    clear - V Hk NM E. lia. }
  rewrite s_abs by (auto; apply VN; lia). cbn [bind]. rewrite s_lt by (auto; try (apply VN; lia); apply SV; lia).
  unfold sin_z. destruct (Z.abs fp <? TH)%Z.
  - destruct (sin_neg_z M H T fp); auto. apply s_neg; auto. apply VN; lia.
  - rewrite s_gt by (auto; apply SV; lia).
    assert (E5 : (if (M <? x4)%Z then fx_sub c (2 * M) x4 else Ok x4) = Ok (sin_red M H T fp)).
    { unfold sin_red. cbv zeta. fold x4. destruct (Z.ltb_spec M x4); auto. apply s_sub; auto; apply SV; lia. }
    rewrite E5. cbn [bind]. rewrite SP. cbn [bind]. rewrite EP.
    destruct (sin_neg_z M H T fp); auto.
    assert (R5 : (0 <= sin_poly_z M P A B C D (sin_red M H T fp) <= P)%Z).
    { pose proof (sin_red_bnd fp) as R6. unfold sin_poly_z. cbv zeta.
      set (x := sin_red M H T fp) in *.
      assert (Q1 : (0 <= fm M x x <= M)%Z) by (apply fm_le; lia). set (q1 := fm M x x) in *.
      assert (Q2 := fm_le M ltac:(lia) D q1 D ltac:(lia) Q1).
      assert (Q3 := fm_le M ltac:(lia) C q1 C ltac:(lia) Q1).
      assert (Q4 := fm_le M ltac:(lia) B q1 B ltac:(lia) Q1).
      assert (Q5 := fm_le M ltac:(lia) A q1 A ltac:(lia) Q1).
      assert (Q6 := fm_le M ltac:(lia) (fm M C q1) (M - fm M D q1) C ltac:(lia) ltac:(lia)). set (q6 := fm M (fm M C q1) (M - fm M D q1)) in *.
      assert (Q7 := fm_le M ltac:(lia) (fm M B q1) (M - q6) B ltac:(lia) ltac:(lia)). set (q7 := fm M (fm M B q1) (M - q6)) in *.
      assert (Q8 := fm_le M ltac:(lia) (fm M A q1) (M - q7) A ltac:(lia) ltac:(lia)). set (q8 := fm M (fm M A q1) (M - q7)) in *.
      assert (Q9 := fm_le M ltac:(lia) P x P ltac:(lia) ltac:(lia)). set (q9 := fm M P x) in *.
      assert (Q10 := fm_le M ltac:(lia) q9 (M - q8) P ltac:(lia) ltac:(lia)). set (q10 := fm M q9 (M - q8)) in *.
      pose proof (Z.div_pos q10 2 ltac:(lia) ltac:(lia)). pose proof (Z.div_le_upper_bound q10 2 P ltac:(lia) ltac:(lia)). lia. }
    apply s_neg; auto; apply SV; lia.
Qed.

(** ** Accuracy *)
Let RM := IZR M.
Let e := / RM.
Let v (z : Z) := IZR z / RM.
Variables d1 d2 : R.
Hypothesis EA : PI * PI / 24 - 2 * e <= v A <= PI * PI / 24.
Hypothesis EB : PI * PI / 80 - 2 * e <= v B <= PI * PI / 80.
Hypothesis EC : PI * PI / 168 - 2 * e <= v C <= PI * PI / 168.
Hypothesis ED : PI * PI / 288 - 2 * e <= v D <= PI * PI / 288.
Hypothesis EP : PI - e <= v P <= PI.
Hypothesis EH : Rabs (RM / IZR H - 2 / PI) * v T <= d1 * e.
Hypothesis ET : Rabs (v T - 2 * PI) <= d2 * e.
Hypothesis ET6 : 6 <= v T.

Lemma sRM : 65536 <= RM. Proof. apply IZR_le. pose proof (std_M c HS). unfold M. lia. Qed.
Lemma se : 0 < e <= / 65536.
Proof. pose proof sRM. split; [apply Rinv_0_lt_compat; lra|apply Rinv_le_contravar; lra]. Qed.
Lemma v_add x y : v (x + y) = v x + v y.
Proof. unfold v. rewrite plus_IZR. pose proof sRM. field. lra. Qed.
Lemma v_mulM k : v (k * M) = IZR k.
Proof. unfold v. rewrite mult_IZR. fold RM. pose proof sRM. field. lra. Qed.
Lemma v_opp x : v (- x) = - v x.
Proof. unfold v. rewrite opp_IZR. pose proof sRM. field. lra. Qed.
Lemma v_le x y : (x <= y)%Z -> v x <= v y.
Proof. intros. apply Rmult_le_compat_r; [left; apply se|apply IZR_le; auto]. Qed.
Lemma v_0 : v 0 = 0. Proof. unfold v. unfold Rdiv. ring. Qed.
Lemma v_M : v M = 1. Proof. replace M with (1 * M)%Z by lia. apply v_mulM. Qed.
Lemma v_abs x : Rabs (v x) = v (Z.abs x).
Proof. unfold v, Rdiv. rewrite Rabs_mult, abs_IZR. f_equal. apply Rabs_pos_eq. left. apply se. Qed.

(** folding into the first quadrant does not change the real sine *)
Lemma fold_quadrant fp :
  sin (PI * v (sin_quad M H T fp) / 2) =
  (if sin_neg_z M H T fp then - sin (PI * v (sin_red M H T fp) / 2) else sin (PI * v (sin_red M H T fp) / 2)).
Proof.
  unfold sin_red. cbv zeta. set (q := sin_quad M H T fp).
  assert (G : forall z, sin (PI * v z / 2) = sin (PI * v (if (M <? z)%Z then (2 * M - z)%Z else z) / 2)).
  { intros z. destruct (M <? z)%Z; auto. replace (2 * M - z)%Z with (2 * M + - z)%Z by lia.
    rewrite v_add, v_mulM, v_opp. rewrite <- sin_PI_x. f_equal. field. }
  destruct (sin_neg_z M H T fp).
  - rewrite <- G. replace (q - 2 * M)%Z with (q + (-2) * M)%Z by lia. rewrite v_add, v_mulM.
    replace (PI * (v q + -2) / 2) with (- (PI - PI * v q / 2)) by field. rewrite sin_neg, sin_PI_x. ring.
  - apply G.
Qed.

(** the quadrant variable against the argument *)
Lemma quad_sin fp :
  Rabs (sin (PI * v (sin_quad M H T fp) / 2) - sin (v (Z.rem fp T))) <= PI / 2 * ((1 + d1) * e).
Proof using HS RA RB RC RD RP RH RT EH.
  set (x1 := Z.rem fp T). set (x2 := Z.quot (x1 * M) H).
  pose proof sRM as HR. pose proof se as He. assert (HPI : 3 < PI) by interval with (i_prec 60).
  assert (HM : (65536 <= M <= 4294967296)%Z) by (apply std_M; auto).
  assert (E0 : sin (PI * v (sin_quad M H T fp) / 2) = sin (PI * v x2 / 2)).
  { unfold sin_quad. fold x1. fold x2. cbv zeta. destruct (x2 <? 0)%Z; auto.
    rewrite v_add, v_mulM. rewrite <- (sin_2kpi (PI * v x2 / 2) 1). f_equal. field. }
  rewrite E0. eapply Rle_trans; [apply sin_lip|].
  replace (PI * v x2 / 2 - v x1) with (PI / 2 * (v x2 - v x1 * (2 / PI))) by (field; lra).
  rewrite Rabs_mult, (Rabs_pos_eq (PI / 2)) by lra. apply Rmult_le_compat_l; [lra|].
  assert (HH0 : RM <= IZR H) by (apply IZR_le; lia).
  pose proof (quot_real (x1 * M) H ltac:(lia)) as Q. fold x2 in Q. rewrite mult_IZR in Q. fold RM in Q.
  assert (Q1 : Rabs (v x2 - v x1 * (RM / IZR H)) <= e).
  { replace (v x2 - v x1 * (RM / IZR H)) with ((IZR x2 - IZR x1 * RM / IZR H) * e) by (unfold v, e; field; lra).
    rewrite Rabs_mult, (Rabs_pos_eq e) by lra. nra. }
  assert (Q2 : Rabs (v x1 * (RM / IZR H) - v x1 * (2 / PI)) <= d1 * e).
  { rewrite <- Rmult_minus_distr_l, Rabs_mult. eapply Rle_trans; [|exact EH].
    rewrite Rmult_comm. apply Rmult_le_compat_l; [apply Rabs_pos|]. rewrite v_abs. apply v_le.
    pose proof (Z.rem_bound_abs fp T ltac:(lia)). fold x1 in H0. lia. }
  apply Rabs_inv_le in Q1. apply Rabs_inv_le in Q2. apply Rabs_le. lra.
Qed.
(** whole periods *)
Lemma period_sin fp : Rabs (sin (v (Z.rem fp T)) - sin (v fp)) <= d2 * e * (Rabs (v fp) / 6).
Proof using HS RT ET ET6.
  pose proof sRM as HR. pose proof se as He.
  assert (HM : (65536 <= M <= 4294967296)%Z) by (apply std_M; auto).
  set (k := Z.quot fp T). pose proof (Z.quot_rem fp T ltac:(lia)) as QR. fold k in QR.
  assert (E0 : v fp = IZR k * v T + v (Z.rem fp T)).
  { rewrite QR at 1. rewrite v_add. f_equal. unfold v. rewrite mult_IZR. field. lra. }
  rewrite <- (sin_2kpi (v (Z.rem fp T)) k). eapply Rle_trans; [apply sin_lip|].
  replace (v (Z.rem fp T) + 2 * IZR k * PI - v fp) with (- (IZR k * (v T - 2 * PI))) by (rewrite E0; ring).
  rewrite Rabs_Ropp, Rabs_mult.
  assert (K : Rabs (IZR k) * 6 <= Rabs (v fp)).
  { apply Rle_trans with (Rabs (IZR k) * v T); [apply Rmult_le_compat_l; [apply Rabs_pos|lra]|].
    assert (EQ : Rabs (IZR k) * v T = v (Z.abs k * T)) by (rewrite <- abs_IZR; unfold v; rewrite mult_IZR; field; lra).
    rewrite EQ, v_abs. apply v_le. unfold k. rewrite <- Z.quot_abs by lia. rewrite (Z.abs_eq T) by lia.
    rewrite Z.mul_comm. apply Z.mul_quot_le; lia. }
  rewrite Rmult_comm. apply Rmult_le_compat; try apply Rabs_pos; lra.
Qed.

Theorem sin_acc fp : (TH <= Z.abs fp)%Z ->
  Rabs (v (sin_z M P H T TH A B C D fp) - sin (v fp)) <=
  3.7e-6 + (7.3 + PI / 2 * (1 + d1)) * e + d2 * e * (Rabs (v fp) / 6).
Proof using HS RA RB RC RD RP RH RT TH4 EA EB EC ED EP EH ET ET6.
  intros NT. pose proof sRM as HR. pose proof se as He.
  assert (HM : (65536 <= M <= 4294967296)%Z) by (apply std_M; auto).
  pose proof (sin_red_bnd fp) as RB1.
  assert (PE : T9 (v (sin_red M H T fp)) - 5.3 * e <= v (sin_poly_z M P A B C D (sin_red M H T fp)) <= T9 (v (sin_red M H T fp)) + 7.3 * e)
    by exact (sin_poly_err M ltac:(lia) P A B C D RA RB RC RD ltac:(lia) EA EB EC ED EP (sin_red M H T fp) RB1).
  assert (VR : 0 <= v (sin_red M H T fp) <= 1).
  { rewrite <- v_0, <- v_M. split; apply v_le; lia. }
  pose proof (T9_sin (v (sin_red M H T fp)) VR) as TS.
  pose proof (quad_sin fp) as QS. pose proof (period_sin fp) as PS. rewrite fold_quadrant in QS.
  unfold sin_z. cbv zeta. replace (Z.abs fp <? TH)%Z with false by (clear - NT; lia).
  set (s0 := sin (PI * v (sin_red M H T fp) / 2)) in *. set (r0 := sin_poly_z M P A B C D (sin_red M H T fp)) in *.
  apply Rabs_inv_le in QS. apply Rabs_inv_le in PS.
  assert (0 <= 5.3 * e <= 7.3 * e) by lra.
  apply Rabs_le. revert QS. destruct (sin_neg_z M H T fp); intros QS; [rewrite v_opp|]; lra.
Qed.
(** next to zero the argument itself is returned, with the sign of the quadrant *)
Theorem sin_tiny fp : (Z.abs fp < TH)%Z ->
  (sin_z M P H T TH A B C D fp = fp \/ sin_z M P H T TH A B C D fp = (- fp)%Z) /\
  ((0 <= fp)%Z -> sin_z M P H T TH A B C D fp = fp).
Proof using HS RH RT RTH TH4.
  intros NT. assert (HM : (65536 <= M <= 4294967296)%Z) by (apply std_M; auto). unfold sin_z. cbv zeta. replace (Z.abs fp <? TH)%Z with true by (clear - NT; lia).
  split; [destruct (sin_neg_z M H T fp); auto|]. intros Hp.
  assert (E : sin_neg_z M H T fp = false); [|rewrite E; auto].
  unfold sin_neg_z, sin_quad. cbv zeta. rewrite Z.rem_small by lia.
  assert (0 <= Z.quot (fp * M) H <= M)%Z.
  { split; [apply Z.quot_pos; nia|]. apply Z.quot_le_upper_bound; nia. }
  set (q := Z.quot (fp * M) H) in *. destruct (Z.ltb_spec q 0); [lia|]. destruct (Z.ltb_spec (2 * M) q); lia.
Qed.
(** never more than a few ulps outside [-1, 1] *)
Theorem sin_range fp : Rabs (v (sin_z M P H T TH A B C D fp)) <= 1 + 3.7e-6 + 7.3 * e.
Proof using HS RA RB RC RD RP RH RT RTH TH4 EA EB EC ED EP.
  pose proof sRM as HR. pose proof se as He.
  assert (HM : (65536 <= M <= 4294967296)%Z) by (apply std_M; auto).
  destruct (Z.lt_ge_cases (Z.abs fp) TH) as [L|G].
  - destruct (sin_tiny fp L) as [E _]. rewrite v_abs.
    replace (Z.abs (sin_z M P H T TH A B C D fp)) with (Z.abs fp) by (destruct E as [-> | ->]; lia).
    apply Rle_trans with (v M); [apply v_le; lia|rewrite v_M; lra].
  - pose proof (sin_red_bnd fp) as RB1.
    assert (PE : T9 (v (sin_red M H T fp)) - 5.3 * e <= v (sin_poly_z M P A B C D (sin_red M H T fp)) <= T9 (v (sin_red M H T fp)) + 7.3 * e)
      by exact (sin_poly_err M ltac:(lia) P A B C D RA RB RC RD ltac:(lia) EA EB EC ED EP (sin_red M H T fp) RB1).
    assert (VR : 0 <= v (sin_red M H T fp) <= 1).
    { rewrite <- v_0, <- v_M. split; apply v_le; lia. }
    pose proof (T9_sin (v (sin_red M H T fp)) VR) as TS.
    pose proof (SIN_bound (PI * v (sin_red M H T fp) / 2)) as SB.
    assert (S0 : 0 <= sin (PI * v (sin_red M H T fp) / 2)).
    { assert (3 < PI) by interval with (i_prec 60). apply sin_ge_0; nra. }
    unfold sin_z. cbv zeta. replace (Z.abs fp <? TH)%Z with false by (clear - G; lia).
    destruct (sin_neg_z M H T fp); [rewrite v_opp, Rabs_Ropp|]; apply Rabs_le; lra.
Qed.
End SIN.
