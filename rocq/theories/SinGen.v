(** sin and cos for every signed instantiation with a 32-bit store and 3 to 27 fraction bits or a 64-bit store and 3 to 59,
    without rounding. *)
From Coq Require Import ZArith Reals Lia Lra Psatz Bool List.
From Interval Require Import Tactic.
From Verif Require Import Base Fixed Math Spec SpecReal BaseLemmas FixedLemmas CLemmas MathProofs PowProofs RealLemmas StdProofs SinPoly SinProofs.
Open Scope R_scope.

Definition sin_cfg (c : cfg) : Prop := wf c = true /\ sgn (ct c) = true /\ cr c = false /\ (3 <= cf c)%Z /\
  (bits (ct c) = 32 /\ cf c <= 27 \/ bits (ct c) = 64 /\ cf c <= 59)%Z.
(** the store holds the integers in [-top, top) *)
Definition top (c : cfg) : Z := (2 ^ (bits (ct c) - 1))%Z.

Section GEN.
Variable c : cfg.
Hypothesis HS : sin_cfg c.
Let M := (2 ^ cf c)%Z.
Lemma g_wf : wf c = true. Proof. apply HS. Qed.
Lemma g_nr : cr c = false. Proof. apply HS. Qed.
Lemma g_f : (3 <= cf c <= 59)%Z. Proof. destruct HS as (_ & _ & _ & A & [[_ B]|[_ B]]); lia. Qed.
Lemma g_t : ct c = int32 \/ ct c = int64.
Proof.
  destruct HS as (_ & S & _ & _ & R). destruct c as [[w s] ci f r]. cbn [ct bits sgn] in *. subst s. unfold int32, int64.
  destruct R as [[-> _]|[-> _]]; auto.
Qed.
Lemma g_t_ok : ity_ok (ct c) = true. Proof. destruct g_t as [-> | ->]; reflexivity. Qed.
Lemma g_u : uac (ct c) int32 = ct c. Proof. destruct g_t as [-> | ->]; reflexivity. Qed.
Lemma g_u' : uac int32 (ct c) = ct c. Proof. destruct g_t as [-> | ->]; reflexivity. Qed.
Lemma g_M : (8 <= M)%Z.
Proof. unfold M. pose proof g_f. change 8%Z with (2 ^ 3)%Z. apply Z.pow_le_mono_r; lia. Qed.
Lemma g_top : (16 * M <= top c)%Z.
Proof.
  unfold M, top. pose proof g_f. change 16%Z with (2 ^ 4)%Z. rewrite <- Z.pow_add_r by lia. apply Z.pow_le_mono_r; [lia|].
  destruct HS as (_ & _ & _ & _ & [[-> B]|[-> B]]); lia.
Qed.
Lemma g_top31 : (2147483648 <= top c)%Z.
Proof. unfold top. destruct HS as (_ & _ & _ & _ & [[-> B]|[-> B]]); vm_compute; congruence. Qed.
Lemma g_max : maxv (ct c) = (top c - 1)%Z.
Proof. unfold maxv, top. destruct HS as (_ & -> & _). reflexivity. Qed.
Lemma g_valid x : valid c x = true <-> (- top c <= x < top c)%Z.
Proof.
  unfold valid. rewrite in_range_iff. unfold minv, maxv, top. destruct HS as (_ & -> & _). lia.
Qed.
Ltac gw := auto using g_wf, g_nr.
Lemma g_add x y : valid c x = true -> valid c y = true -> valid c (x + y) = true -> fx_add c x y = Ok (x + y)%Z.
Proof. intros. rewrite fx_add_eq by gw. apply ovf_valid; gw. Qed.
Lemma g_sub x y : valid c x = true -> valid c y = true -> valid c (x - y) = true -> fx_sub c x y = Ok (x - y)%Z.
Proof. intros. rewrite fx_sub_eq by gw. apply ovf_valid; gw. Qed.
Lemma g_neg x : valid c x = true -> valid c (- x) = true -> fx_neg c x = Ok (- x)%Z.
Proof. intros. rewrite fx_neg_eq by gw. apply ovf_valid; gw. Qed.
Lemma g_mul x y : valid c x = true -> valid c y = true -> valid c (x * y / M) = true -> fx_mul c x y = Ok (x * y / M)%Z.
Proof. intros. rewrite fx_mul_eq by gw. f_equal. apply valid_wrap; gw. Qed.
Lemma g_div x y : valid c x = true -> valid c y = true -> y <> 0%Z -> valid c (Z.quot (x * M) y) = true ->
  fx_div c x y = Ok (Z.quot (x * M) y).
Proof. intros. rewrite fx_div_eq by gw. f_equal. apply valid_wrap; gw. Qed.
Lemma g_int n : valid c (n * M) = true -> fx_of_int c n = Ok (n * M)%Z.
Proof. intros. rewrite fx_of_int_eq by gw. f_equal. apply valid_wrap; gw. Qed.
Lemma g_abs x : valid c x = true -> valid c (Z.abs x) = true -> fx_abs c x = Ok (Z.abs x).
Proof. intros. apply abs_ok; gw. Qed.
Lemma g_lt x y : valid c x = true -> valid c y = true -> fx_lt c x y = (x <? y)%Z.
Proof. apply fx_lt_eq, g_wf. Qed.
Lemma g_gt x y : valid c x = true -> valid c y = true -> fx_gt c x y = (y <? x)%Z.
Proof. apply fx_gt_eq, g_wf. Qed.
Lemma g_div_int x n : valid c x = true -> (0 < n < 1000)%Z -> fx_div_int c int32 x n = Ok (Z.quot x n).
Proof.
  intros V Hn. unfold fx_div_int, fx_div_assign_int.
  assert (QL : (Z.abs (Z.quot x n) <= Z.abs x)%Z).
  { rewrite <- Z.quot_abs by lia. rewrite (Z.abs_eq n) by lia. apply Z.quot_le_upper_bound; nia. }
  assert (QS : (0 <= x -> 0 <= Z.quot x n)%Z) by (intros; apply Z.quot_pos; lia).
  assert (QN : (x <= 0 -> Z.quot x n <= 0)%Z).
  { intros. pose proof (Z.quot_pos (- x) n ltac:(lia) ltac:(lia)). rewrite Z.quot_opp_l in * by lia. lia. }
  assert (Q : valid c (Z.quot x n) = true).
  { apply g_valid in V. apply g_valid. clear - QL QS QN V. lia. }
  assert (R : valid c n = true).
  { apply g_valid. pose proof g_top31. lia. }
  pose proof g_t_ok as T.
  unfold c_div. rewrite g_u, !wrap_id by auto. replace (n =? 0)%Z with false by (clear - Hn; lia).
  rewrite arith_ok by auto. cbn [bind]. rewrite wrap_id by auto. reflexivity.
Qed.
End GEN.

Section GINT.
Variable c : cfg.
Hypothesis HS : sin_cfg c.
Variables P A B C D : Z.
Let M := (2 ^ cf c)%Z.
Hypothesis HP : pi_v c = Ok P.
Hypothesis HP' : fx_pi c = Ok P.
Hypothesis HA : (let* p := fx_mul c P P in fx_div_int c int32 p 24) = Ok A.
Hypothesis HB : (let* p := fx_mul c P P in fx_div_int c int32 p 80) = Ok B.
Hypothesis HC : (let* p := fx_mul c P P in fx_div_int c int32 p 168) = Ok C.
Hypothesis HD : (let* p := fx_mul c P P in fx_div_int c int32 p 288) = Ok D.
Hypothesis RA : (0 <= A <= M)%Z.
Hypothesis RB : (0 <= B <= M)%Z.
Hypothesis RC : (0 <= C <= M)%Z.
Hypothesis RD : (0 <= D <= M)%Z.
Hypothesis RP : (0 <= P <= 4 * M)%Z.

Lemma g_fm_range u v k : (0 <= u <= k)%Z -> (0 <= v <= M)%Z -> (0 <= fm M u v <= k)%Z.
Proof.
  intros Hu Hv. pose proof (g_M c HS) as HM. fold M in HM. unfold fm. split.
  - apply Z.div_pos; nia.
  - apply Z.div_le_upper_bound; nia.
Qed.
Lemma g_small_v k : (- M <= k <= 8 * M)%Z -> valid c k = true.
Proof. intros. apply g_valid; auto. pose proof (g_M c HS) as HM. pose proof (g_top c HS) as HT. fold M in HM, HT. lia. Qed.
Lemma g_fm_ok u v k : (0 <= u <= k)%Z -> (k <= 8 * M)%Z -> (0 <= v <= M)%Z -> fx_mul c u v = Ok (fm M u v).
Proof.
  intros Hu Hk Hv. pose proof (g_fm_range u v k Hu Hv). pose proof (g_M c HS) as HM. fold M in HM. unfold fm in *.
  apply g_mul; auto; apply g_small_v; try (fold M); lia.
Qed.
Lemma g_sub_ok u : (0 <= u <= M)%Z -> fx_sub c M u = Ok (M - u)%Z.
Proof. intros H. pose proof (g_M c HS) as HM. fold M in HM. apply g_sub; auto; apply g_small_v; lia. Qed.

Lemma g_sin_poly_eq x : (0 <= x <= M)%Z -> sin_poly c x = Ok (sin_poly_z M P A B C D x).
Proof using HS HP HP' HA HB HC HD RA RB RC RD RP.
  intros Hx. pose proof (g_M c HS) as HM. fold M in HM.
  unfold sin_poly. rewrite g_int by (auto; apply g_small_v; fold M; lia). fold M. cbn [bind].
  replace (1 * M)%Z with M by lia.
  rewrite (g_fm_ok x x M) by lia. cbn [bind]. rewrite HP. cbn [bind].
  destruct (fx_mul c P P) as [pp| | |] eqn:EP; try discriminate. cbn [bind] in *.
  rewrite HA, HB, HC, HD. cbn [bind].
  unfold sin_poly_z. 
  set (x2 := fm M x x). assert (X2 : (0 <= x2 <= M)%Z) by (apply g_fm_range; lia).
  rewrite (g_fm_ok D x2 D) by lia. cbn [bind].
  assert (R1 : (0 <= fm M D x2 <= D)%Z) by (apply g_fm_range; lia). rewrite g_sub_ok by lia. cbn [bind].
  set (d2 := (M - fm M D x2)%Z) in *.
  rewrite (g_fm_ok C x2 C) by lia. cbn [bind].
  assert (R2 : (0 <= fm M C x2 <= C)%Z) by (apply g_fm_range; lia). rewrite (g_fm_ok _ d2 C) by lia. cbn [bind].
  assert (R3 : (0 <= fm M (fm M C x2) d2 <= C)%Z) by (apply g_fm_range; lia). rewrite g_sub_ok by lia. cbn [bind].
  set (c2 := (M - fm M (fm M C x2) d2)%Z) in *.
  rewrite (g_fm_ok B x2 B) by lia. cbn [bind].
  assert (R4 : (0 <= fm M B x2 <= B)%Z) by (apply g_fm_range; lia). rewrite (g_fm_ok _ c2 B) by lia. cbn [bind].
  assert (R5 : (0 <= fm M (fm M B x2) c2 <= B)%Z) by (apply g_fm_range; lia). rewrite g_sub_ok by lia. cbn [bind].
  set (b2 := (M - fm M (fm M B x2) c2)%Z) in *.
  rewrite (g_fm_ok A x2 A) by lia. cbn [bind].
  assert (R6 : (0 <= fm M A x2 <= A)%Z) by (apply g_fm_range; lia). rewrite (g_fm_ok _ b2 A) by lia. cbn [bind].
  assert (R7 : (0 <= fm M (fm M A x2) b2 <= A)%Z) by (apply g_fm_range; lia). rewrite g_sub_ok by lia. cbn [bind].
  set (a2 := (M - fm M (fm M A x2) b2)%Z) in *.
  rewrite HP'. cbn [bind]. rewrite (g_fm_ok P x P) by lia. cbn [bind].
  assert (R8 : (0 <= fm M P x <= P)%Z) by (apply g_fm_range; lia). rewrite (g_fm_ok _ a2 P) by lia. cbn [bind].
  assert (R9 : (0 <= fm M (fm M P x) a2 <= P)%Z) by (apply g_fm_range; lia).
  rewrite g_div_int by (auto; try (apply g_small_v; fold M); lia). f_equal. apply Z.quot_div_nonneg; lia.
Qed.
(** the argument may come out of the reduction one unit below 0 *)
Lemma g_sin_poly_m1 : (3 * M < P < 4 * M)%Z -> sin_poly c (-1) = Ok (-2)%Z /\ sin_poly_z M P A B C D (-1) = (-2)%Z.
Proof using HS HP HP' HA HB HC HD RA RB RC RD RP.
  intros R3. pose proof (g_M c HS) as HM. fold M in HM.
  assert (Z0 : forall u, (0 <= u <= 8 * M)%Z -> fx_mul c u 0 = Ok 0%Z).
  { intros u Hu. rewrite (g_fm_ok u 0 u) by lia. unfold fm. rewrite Z.mul_0_r. reflexivity. }
  assert (ZM : fx_mul c 0 M = Ok 0%Z) by (rewrite (g_fm_ok 0 M 0) by lia; reflexivity).
  assert (EX : (-1 * -1 / M = 0)%Z) by (apply Z.div_small; lia).
  assert (EPX : (P * -1 / M = -4)%Z) by (symmetry; apply (Z.div_unique _ _ _ (4 * M - P)); lia).
  split.
  - unfold sin_poly. rewrite g_int by (auto; apply g_small_v; fold M; lia). fold M. cbn [bind].
    replace (1 * M)%Z with M by lia.
    assert (E0 : fx_mul c (-1) (-1) = Ok 0%Z).
    { rewrite g_mul; fold M; try rewrite EX; auto; apply g_small_v; fold M; lia. }
    rewrite E0. cbn [bind]. rewrite HP. cbn [bind].
    destruct (fx_mul c P P) as [pp| | |] eqn:EP; try discriminate. cbn [bind] in *.
    rewrite HA, HB, HC, HD. cbn [bind].
    rewrite Z0 by lia. cbn [bind]. rewrite g_sub_ok by lia. cbn [bind]. replace (M - 0)%Z with M by lia.
    rewrite Z0 by lia. cbn [bind]. rewrite ZM. cbn [bind]. rewrite g_sub_ok by lia. cbn [bind]. replace (M - 0)%Z with M by lia.
    rewrite Z0 by lia. cbn [bind]. rewrite ZM. cbn [bind]. rewrite g_sub_ok by lia. cbn [bind]. replace (M - 0)%Z with M by lia.
    rewrite Z0 by lia. cbn [bind]. rewrite ZM. cbn [bind]. rewrite g_sub_ok by lia. cbn [bind]. replace (M - 0)%Z with M by lia.
    rewrite HP'. cbn [bind].
    assert (E1 : fx_mul c P (-1) = Ok (-4)%Z).
    { rewrite g_mul; fold M; try rewrite EPX; auto; apply g_small_v; fold M; lia. }
    rewrite E1. cbn [bind].
    assert (E2 : fx_mul c (-4) M = Ok (-4)%Z).
    { rewrite g_mul; fold M; rewrite ?Z.div_mul by lia; auto; apply g_small_v; fold M; lia. }
    rewrite E2. cbn [bind]. rewrite g_div_int by (auto; try (apply g_small_v; fold M); lia). reflexivity.
  - unfold sin_poly_z, fm. rewrite EX. rewrite EPX. repeat (rewrite ?Z.mul_0_r, ?Z.mul_0_l, ?Z.sub_0_r; rewrite ?Z.div_0_l by lia).
    rewrite Z.div_mul by lia. reflexivity.
Qed.
End GINT.

Section GSIN.
Variable c : cfg.
Hypothesis HS : sin_cfg c.
Variables P H T TH A B C D : Z.
Let M := (2 ^ cf c)%Z.
Hypothesis HP : pi_v c = Ok P.
Hypothesis HP' : fx_pi c = Ok P.
Hypothesis HH : fx_pi_2 c = Ok H.
Hypothesis HT : fx_double_pi c = Ok T.
Hypothesis HTH : sin_threshold c = Ok TH.
Hypothesis HA : (let* p := fx_mul c P P in fx_div_int c int32 p 24) = Ok A.
Hypothesis HB : (let* p := fx_mul c P P in fx_div_int c int32 p 80) = Ok B.
Hypothesis HC : (let* p := fx_mul c P P in fx_div_int c int32 p 168) = Ok C.
Hypothesis HD : (let* p := fx_mul c P P in fx_div_int c int32 p 288) = Ok D.
Hypothesis RA : (0 <= A <= M)%Z.
Hypothesis RB : (0 <= B <= M)%Z.
Hypothesis RC : (0 <= C <= M)%Z.
Hypothesis RD : (0 <= D <= M)%Z.
Hypothesis RP : (3 * M < P < 4 * M)%Z.
Hypothesis RH : (M <= H <= 2 * M)%Z.
Hypothesis RT : (M <= T <= 8 * M)%Z.
Hypothesis RTH : (0 <= TH <= M)%Z.
Hypothesis TH4 : ((T - 1) * M < (4 * M + 2) * H)%Z.

Lemma g_rem_bnd fp : (- T < Z.rem fp T < T)%Z.
Proof. pose proof (g_M c HS) as HM. fold M in HM. pose proof (Z.rem_bound_abs fp T ltac:(lia)). lia. Qed.
Lemma g_quot_bnd fp : (- (4 * M + 1) <= Z.quot (Z.rem fp T * M) H <= 4 * M + 1)%Z.
Proof.
  pose proof (g_rem_bnd fp) as R. pose proof (g_M c HS) as HM. fold M in HM.
  assert (Z.abs (Z.quot (Z.rem fp T * M) H) < 4 * M + 2)%Z; [|lia].
  rewrite <- Z.quot_abs by lia. rewrite (Z.abs_eq H) by lia.
  apply Z.quot_lt_upper_bound; try lia. rewrite Z.abs_mul, (Z.abs_eq M) by lia.
  apply Z.le_lt_trans with ((T - 1) * M)%Z; [apply Z.mul_le_mono_nonneg_r; lia|lia].
Qed.
Lemma g_sin_quad_bnd fp : (-1 <= sin_quad M H T fp <= 4 * M + 1)%Z.
Proof. pose proof (g_quot_bnd fp). unfold sin_quad. cbv zeta. destruct (Z.ltb_spec (Z.quot (Z.rem fp T * M) H) 0); lia. Qed.
Lemma g_sin_red_bnd fp : (-1 <= sin_red M H T fp <= M)%Z.
Proof.
  pose proof (g_sin_quad_bnd fp). unfold sin_red, sin_neg_z. cbv zeta.
  destruct (Z.ltb_spec (2 * M) (sin_quad M H T fp)); [destruct (Z.ltb_spec M (sin_quad M H T fp - 2 * M))|destruct (Z.ltb_spec M (sin_quad M H T fp))]; lia.
Qed.

Lemma g_sin_eq fp : valid c fp = true -> fp <> (- top c)%Z ->
  fx_sin c fp = Ok (sin_z M P H T TH A B C D fp).
Proof using HS HP HP' HH HT HTH HA HB HC HD RA RB RC RD RP RH RT RTH TH4.
  intros V NM. pose proof (g_M c HS) as HM. fold M in HM.
  pose proof (g_wf c HS) as W. pose proof (g_nr c HS) as NR. pose proof (g_top c HS) as HTP. fold M in HTP.
  pose proof (g_rem_bnd fp) as R1. pose proof (g_quot_bnd fp) as R2.
  assert (SV : forall k, (- (8 * M) <= k <= 8 * M)%Z -> valid c k = true).
  { intros k Hk. apply g_valid; auto. clear - HM HTP Hk. lia. }
  assert (SP : exists k, sin_poly c (sin_red M H T fp) = Ok k /\ k = sin_poly_z M P A B C D (sin_red M H T fp)).
  { eexists. split; [|reflexivity]. pose proof (g_sin_red_bnd fp) as RB0. destruct (Z.eq_dec (sin_red M H T fp) (-1)) as [E0|N0].
    - rewrite E0. destruct (g_sin_poly_m1 c HS P A B C D HP HP' HA HB HC HD RA RB RC RD ltac:(fold M; lia) RP) as [E1 E2]. fold M in E2. rewrite E1, E2. reflexivity.
    - apply g_sin_poly_eq; auto; fold M; lia. }
  destruct SP as (pl & SP & EP).
  unfold fx_sin. rewrite HT. cbn [bind].
  assert (E1 : fx_rem_assign c fp T = Ok (Z.rem fp T)).
  { change (fx_rem_assign c fp T) with (fx_rem c fp T). rewrite fx_rem_eq by (auto; apply SV; lia).
    replace (T =? 0)%Z with false by (clear - RT HM; lia).
    assert (Q : valid c (Z.quot fp T) = true).
    { apply g_valid; auto. apply (g_valid c HS) in V.
      assert (Z.abs (Z.quot fp T) * M <= Z.abs fp)%Z.
      { rewrite <- Z.quot_abs by lia. rewrite (Z.abs_eq T) by lia.
        pose proof (Z.mul_quot_le (Z.abs fp) T ltac:(lia) ltac:(lia)). pose proof (Z.quot_pos (Z.abs fp) T ltac:(lia) ltac:(lia)). nia. }
      clear - H0 V HM HTP. nia. }
    rewrite Q. rewrite andb_false_r. reflexivity. }
  rewrite E1. cbn [bind]. rewrite HH. cbn [bind].
  assert (E2 : fx_div_assign c (Z.rem fp T) H = Ok (Z.quot (Z.rem fp T * M) H)).
  { transitivity (fx_div c (Z.rem fp T) H); [unfold fx_div_assign, fx_div; rewrite NR; reflexivity|].
    apply g_div; auto; fold M; try (apply SV; lia). lia. }
  rewrite E2. cbn [bind]. set (x2 := Z.quot (Z.rem fp T * M) H) in *.
  rewrite !g_int by (auto; apply SV; fold M; lia). fold M. cbn [bind].
  replace (0 * M)%Z with 0%Z by lia. replace (1 * M)%Z with M by lia.
  rewrite g_lt by (auto; apply SV; lia).
  assert (E3 : (if (x2 <? 0)%Z then fx_add_assign c x2 (4 * M) else Ok x2) = Ok (sin_quad M H T fp)).
  { unfold sin_quad. fold x2. cbv zeta. destruct (Z.ltb_spec x2 0); auto.
    change (fx_add_assign c x2 (4 * M)) with (fx_add c x2 (4 * M)). apply g_add; auto; apply SV; lia. }
  rewrite E3. cbn [bind]. pose proof (g_sin_quad_bnd fp) as R3. rewrite g_gt by (auto; apply SV; lia).
  fold (sin_neg_z M H T fp). change (fx_sub_assign c) with (fx_sub c).
  set (x4 := if sin_neg_z M H T fp then (sin_quad M H T fp - 2 * M)%Z else sin_quad M H T fp).
  assert (R4 : (-1 <= x4 <= 2 * M + 1)%Z).
  { unfold x4, sin_neg_z. destruct (Z.ltb_spec (2 * M) (sin_quad M H T fp)); lia. }
  assert (E4 : (if sin_neg_z M H T fp then fx_sub c (sin_quad M H T fp) (2 * M) else Ok (sin_quad M H T fp)) = Ok x4).
  { unfold x4. revert R4. unfold x4, sin_neg_z. destruct (Z.ltb_spec (2 * M) (sin_quad M H T fp)); intros; auto.
    apply g_sub; auto; apply SV; lia. }
  rewrite E4. cbn [bind]. rewrite HTH. cbn [bind].
  assert (VN : forall k, (Z.abs k <= Z.abs fp)%Z -> valid c k = true).
  { intros k Hk. apply (g_valid c HS) in V. apply (g_valid c HS). 
    clear - V Hk NM. lia. }
  rewrite g_abs by (auto; apply VN; lia). cbn [bind]. rewrite g_lt by (auto; try (apply VN; lia); apply SV; lia).
  unfold sin_z. destruct (Z.abs fp <? TH)%Z.
  - destruct (sin_neg_z M H T fp); auto. apply g_neg; auto. apply VN; lia.
  - rewrite g_gt by (auto; apply SV; lia).
    assert (E5 : (if (M <? x4)%Z then fx_sub c (2 * M) x4 else Ok x4) = Ok (sin_red M H T fp)).
    { unfold sin_red. cbv zeta. fold x4. destruct (Z.ltb_spec M x4); auto. apply g_sub; auto; apply SV; lia. }
    rewrite E5. cbn [bind]. rewrite SP. cbn [bind]. rewrite EP.
    destruct (sin_neg_z M H T fp); auto.
    assert (R5 : (-2 <= sin_poly_z M P A B C D (sin_red M H T fp) <= P)%Z).
    { pose proof (g_sin_red_bnd fp) as R6. destruct (Z.eq_dec (sin_red M H T fp) (-1)) as [E0|N0].
      { rewrite E0. destruct (g_sin_poly_m1 c HS P A B C D HP HP' HA HB HC HD RA RB RC RD ltac:(fold M; lia) RP) as [_ Em]. fold M in Em. rewrite Em. lia. }
      assert (R7 : (0 <= sin_red M H T fp <= M)%Z) by (clear - R6 N0; lia). clear R6 N0. unfold sin_poly_z. cbv zeta.
      set (x := sin_red M H T fp) in *.
      assert (Q1 : (0 <= fm M x x <= M)%Z) by (apply fm_le; lia). set (q1 := fm M x x) in *.
      assert (Q2 := fm_le M ltac:(lia) D q1 D ltac:(lia) Q1).
      assert (Q3 := fm_le M ltac:(lia) C q1 C ltac:(lia) Q1).
      assert (Q4 := fm_le M ltac:(lia) B q1 B ltac:(lia) Q1).
      assert (Q5 := fm_le M ltac:(lia) A q1 A ltac:(lia) Q1).
      assert (Q6 := fm_le M ltac:(lia) (fm M C q1) (M - fm M D q1) C ltac:(lia) ltac:(lia)). set (q6 := fm M (fm M C q1) (M - fm M D q1)) in *.
      assert (Q7 := fm_le M ltac:(lia) (fm M B q1) (M - q6) B ltac:(lia) ltac:(lia)). set (q7 := fm M (fm M B q1) (M - q6)) in *.
      assert (Q8 := fm_le M ltac:(lia) (fm M A q1) (M - q7) A ltac:(lia) ltac:(lia)). set (q8 := fm M (fm M A q1) (M - q7)) in *.
      assert (Q9 := fm_le M ltac:(lia) P x P ltac:(lia) ltac:(lia)). set (q9 := fm M P x) in *.
      assert (Q10 := fm_le M ltac:(lia) q9 (M - q8) P ltac:(lia) ltac:(lia)). set (q10 := fm M q9 (M - q8)) in *.
      pose proof (Z.div_pos q10 2 ltac:(lia) ltac:(lia)). pose proof (Z.div_le_upper_bound q10 2 P ltac:(lia) ltac:(lia)). lia. }
    apply g_neg; auto; apply SV; lia.
Qed.

(** ** Accuracy *)
Let RM := IZR M.
Let e := / RM.
Let v (z : Z) := IZR z / RM.
Variables d1 d2 : R.
Hypothesis EA : PI * PI / 24 - 2 * e <= v A <= PI * PI / 24.
Hypothesis EB : PI * PI / 80 - 2 * e <= v B <= PI * PI / 80.
Hypothesis EC : PI * PI / 168 - 2 * e <= v C <= PI * PI / 168.
Hypothesis ED : PI * PI / 288 - 2 * e <= v D <= PI * PI / 288.
Hypothesis EP : PI - e <= v P <= PI.
Hypothesis EH : Rabs (RM / IZR H - 2 / PI) * v T <= d1 * e.
Hypothesis ET : Rabs (v T - 2 * PI) <= d2 * e.
Hypothesis ET6 : 6 <= v T.

Lemma g_sRM : 8 <= RM. Proof. apply IZR_le. exact (g_M c HS). Qed.
Lemma g_se : 0 < e <= / 8.
Proof. pose proof g_sRM. split; [apply Rinv_0_lt_compat; lra|apply Rinv_le_contravar; lra]. Qed.
Lemma g_v_add x y : v (x + y) = v x + v y.
Proof. unfold v. rewrite plus_IZR. pose proof g_sRM. field. lra. Qed.
Lemma g_v_mulM k : v (k * M) = IZR k.
Proof. unfold v. rewrite mult_IZR. fold RM. pose proof g_sRM. field. lra. Qed.
Lemma g_v_opp x : v (- x) = - v x.
Proof. unfold v. rewrite opp_IZR. pose proof g_sRM. field. lra. Qed.
Lemma g_v_le x y : (x <= y)%Z -> v x <= v y.
Proof. intros. apply Rmult_le_compat_r; [left; apply g_se|apply IZR_le; auto]. Qed.
Lemma g_v_0 : v 0 = 0. Proof. unfold v. unfold Rdiv. ring. Qed.
Lemma g_v_M : v M = 1. Proof. replace M with (1 * M)%Z by lia. apply g_v_mulM. Qed.
Lemma g_v_abs x : Rabs (v x) = v (Z.abs x).
Proof. unfold v, Rdiv. rewrite Rabs_mult, abs_IZR. f_equal. apply Rabs_pos_eq. left. apply g_se. Qed.

(** folding into the first quadrant does not change the real sine *)
Lemma g_fold_quadrant fp :
  sin (PI * v (sin_quad M H T fp) / 2) =
  (if sin_neg_z M H T fp then - sin (PI * v (sin_red M H T fp) / 2) else sin (PI * v (sin_red M H T fp) / 2)).
Proof.
  unfold sin_red. cbv zeta. set (q := sin_quad M H T fp).
  assert (G : forall z, sin (PI * v z / 2) = sin (PI * v (if (M <? z)%Z then (2 * M - z)%Z else z) / 2)).
  { intros z. destruct (M <? z)%Z; auto. replace (2 * M - z)%Z with (2 * M + - z)%Z by lia.
    rewrite g_v_add, g_v_mulM, g_v_opp. rewrite <- sin_PI_x. f_equal. field. }
  destruct (sin_neg_z M H T fp).
  - rewrite <- G. replace (q - 2 * M)%Z with (q + (-2) * M)%Z by lia. rewrite g_v_add, g_v_mulM.
    replace (PI * (v q + -2) / 2) with (- (PI - PI * v q / 2)) by field. rewrite sin_neg, sin_PI_x. ring.
  - apply G.
Qed.

(** the quadrant variable against the argument *)
Lemma g_quad_sin fp :
  Rabs (sin (PI * v (sin_quad M H T fp) / 2) - sin (v (Z.rem fp T))) <= PI / 2 * ((1 + d1) * e).
Proof using HS RA RB RC RD RP RH RT EH.
  set (x1 := Z.rem fp T). set (x2 := Z.quot (x1 * M) H).
  pose proof g_sRM as HR. pose proof g_se as He. assert (HPI : 3 < PI) by interval with (i_prec 60).
  assert (HM : (8 <= M)%Z) by (apply g_M; auto).
  assert (E0 : sin (PI * v (sin_quad M H T fp) / 2) = sin (PI * v x2 / 2)).
  { unfold sin_quad. fold x1. fold x2. cbv zeta. destruct (x2 <? 0)%Z; auto.
    rewrite g_v_add, g_v_mulM. rewrite <- (sin_2kpi (PI * v x2 / 2) 1). f_equal. field. }
  rewrite E0. eapply Rle_trans; [apply sin_lip|].
  replace (PI * v x2 / 2 - v x1) with (PI / 2 * (v x2 - v x1 * (2 / PI))) by (field; lra).
  rewrite Rabs_mult, (Rabs_pos_eq (PI / 2)) by lra. apply Rmult_le_compat_l; [lra|].
  assert (HH0 : RM <= IZR H) by (apply IZR_le; lia).
  pose proof (quot_real (x1 * M) H ltac:(lia)) as Q. fold x2 in Q. rewrite mult_IZR in Q. fold RM in Q.
  assert (Q1 : Rabs (v x2 - v x1 * (RM / IZR H)) <= e).
  { replace (v x2 - v x1 * (RM / IZR H)) with ((IZR x2 - IZR x1 * RM / IZR H) * e) by (unfold v, e; field; lra).
    rewrite Rabs_mult, (Rabs_pos_eq e) by lra. nra. }
  assert (Q2 : Rabs (v x1 * (RM / IZR H) - v x1 * (2 / PI)) <= d1 * e).
  { rewrite <- Rmult_minus_distr_l, Rabs_mult. eapply Rle_trans; [|exact EH].
    rewrite Rmult_comm. apply Rmult_le_compat_l; [apply Rabs_pos|]. rewrite g_v_abs. apply g_v_le.
    pose proof (Z.rem_bound_abs fp T ltac:(lia)). fold x1 in H0. lia. }
  apply Rabs_inv_le in Q1. apply Rabs_inv_le in Q2. apply Rabs_le. lra.
Qed.
(** whole periods *)
Lemma g_period_sin fp : Rabs (sin (v (Z.rem fp T)) - sin (v fp)) <= d2 * e * (Rabs (v fp) / 6).
Proof using HS RT ET ET6.
  pose proof g_sRM as HR. pose proof g_se as He.
  assert (HM : (8 <= M)%Z) by (apply g_M; auto).
  set (k := Z.quot fp T). pose proof (Z.quot_rem fp T ltac:(lia)) as QR. fold k in QR.
  assert (E0 : v fp = IZR k * v T + v (Z.rem fp T)).
  { rewrite QR at 1. rewrite g_v_add. f_equal. unfold v. rewrite mult_IZR. field. lra. }
  rewrite <- (sin_2kpi (v (Z.rem fp T)) k). eapply Rle_trans; [apply sin_lip|].
  replace (v (Z.rem fp T) + 2 * IZR k * PI - v fp) with (- (IZR k * (v T - 2 * PI))) by (rewrite E0; ring).
  rewrite Rabs_Ropp, Rabs_mult.
  assert (K : Rabs (IZR k) * 6 <= Rabs (v fp)).
  { apply Rle_trans with (Rabs (IZR k) * v T); [apply Rmult_le_compat_l; [apply Rabs_pos|lra]|].
    assert (EQ : Rabs (IZR k) * v T = v (Z.abs k * T)) by (rewrite <- abs_IZR; unfold v; rewrite mult_IZR; field; lra).
    rewrite EQ, g_v_abs. apply g_v_le. unfold k. rewrite <- Z.quot_abs by lia. rewrite (Z.abs_eq T) by lia.
    rewrite Z.mul_comm. apply Z.mul_quot_le; lia. }
  rewrite Rmult_comm. apply Rmult_le_compat; try apply Rabs_pos; lra.
Qed.

(** the polynomial on the reduced argument *)
Lemma g_poly_acc x : (-1 <= x <= M)%Z ->
  Rabs (v (sin_poly_z M P A B C D x) - sin (PI * v x / 2)) <= 3.7e-6 + 7.3 * e /\
  Rabs (v (sin_poly_z M P A B C D x)) <= 1 + 3.7e-6 + 7.3 * e.
Proof using HS HP HP' HA HB HC HD RA RB RC RD RP EA EB EC ED EP.
  intros Hx. pose proof g_sRM as HR. pose proof g_se as He.
  assert (HM : (8 <= M)%Z) by (apply g_M; auto).
  assert (H3 : 3 < PI < 3.15) by (split; interval with (i_prec 60)).
  destruct (Z.eq_dec x (-1)) as [->|N].
  - destruct (g_sin_poly_m1 c HS P A B C D HP HP' HA HB HC HD RA RB RC RD ltac:(fold M; lia) RP) as [_ Em]. fold M in Em. rewrite Em.
    assert (E1 : v (-1) = - e) by (unfold v, e; field; lra). assert (E2 : v (-2) = - 2 * e) by (unfold v, e; field; lra).
    rewrite E1, E2. replace (PI * - e / 2) with (- (PI * e / 2)) by field. rewrite sin_neg.
    assert (S0 : 0 <= sin (PI * e / 2)) by (apply sin_ge_0; nra).
    assert (S1 : sin (PI * e / 2) <= PI * e / 2) by (left; apply sin_lt_x; nra).
    split; apply Rabs_le; nra.
  - assert (Hx' : (0 <= x <= M)%Z) by lia.
    assert (PE : T9 (v x) - 5.3 * e <= v (sin_poly_z M P A B C D x) <= T9 (v x) + 7.3 * e)
      by exact (sin_poly_err M ltac:(lia) P A B C D RA RB RC RD ltac:(lia) EA EB EC ED EP x Hx').
    assert (VR : 0 <= v x <= 1).
    { rewrite <- g_v_0, <- g_v_M. split; apply g_v_le; lia. }
    pose proof (T9_sin (v x) VR) as TS.
    pose proof (SIN_bound (PI * v x / 2)) as SB.
    assert (S0 : 0 <= sin (PI * v x / 2)) by (apply sin_ge_0; nra).
    split; apply Rabs_le; lra.
Qed.

Theorem g_sin_acc fp : (TH <= Z.abs fp)%Z ->
  Rabs (v (sin_z M P H T TH A B C D fp) - sin (v fp)) <=
  3.7e-6 + (7.3 + PI / 2 * (1 + d1)) * e + d2 * e * (Rabs (v fp) / 6).
Proof using HS HP HP' HA HB HC HD RA RB RC RD RP RH RT TH4 EA EB EC ED EP EH ET ET6.
  intros NT. pose proof g_sRM as HR. pose proof g_se as He.
  assert (HM : (8 <= M)%Z) by (apply g_M; auto).
  pose proof (g_sin_red_bnd fp) as RB1. destruct (g_poly_acc _ RB1) as [PE _].
  pose proof (g_quad_sin fp) as QS. pose proof (g_period_sin fp) as PS. rewrite g_fold_quadrant in QS.
  unfold sin_z. cbv zeta. replace (Z.abs fp <? TH)%Z with false by (clear - NT; lia).
  set (s0 := sin (PI * v (sin_red M H T fp) / 2)) in *. set (r0 := sin_poly_z M P A B C D (sin_red M H T fp)) in *.
  apply Rabs_inv_le in QS. apply Rabs_inv_le in PS. apply Rabs_inv_le in PE.
  apply Rabs_le. revert QS. destruct (sin_neg_z M H T fp); intros QS; [rewrite g_v_opp|]; lra.
Qed.
(** next to zero the argument itself is returned, with the sign of the quadrant *)
Theorem g_sin_tiny fp : (Z.abs fp < TH)%Z ->
  (sin_z M P H T TH A B C D fp = fp \/ sin_z M P H T TH A B C D fp = (- fp)%Z) /\
  ((0 <= fp)%Z -> sin_z M P H T TH A B C D fp = fp).
Proof using HS RP RH RT RTH TH4.
  intros NT. assert (HM : (8 <= M)%Z) by (apply g_M; auto). unfold sin_z. cbv zeta. replace (Z.abs fp <? TH)%Z with true by (clear - NT; lia).
  split; [destruct (sin_neg_z M H T fp); auto|]. intros Hp.
  assert (E : sin_neg_z M H T fp = false); [|rewrite E; auto].
  unfold sin_neg_z, sin_quad. cbv zeta. rewrite Z.rem_small by lia.
  assert (0 <= Z.quot (fp * M) H <= M)%Z.
  { split; [apply Z.quot_pos; nia|]. apply Z.quot_le_upper_bound; nia. }
  set (q := Z.quot (fp * M) H) in *. destruct (Z.ltb_spec q 0); [lia|]. destruct (Z.ltb_spec (2 * M) q); lia.
Qed.
(** never more than a few ulps outside [-1, 1] *)
Theorem g_sin_range fp : Rabs (v (sin_z M P H T TH A B C D fp)) <= 1 + 3.7e-6 + 7.3 * e.
Proof using HS HP HP' HA HB HC HD RA RB RC RD RP RH RT RTH TH4 EA EB EC ED EP.
  pose proof g_sRM as HR. pose proof g_se as He.
  assert (HM : (8 <= M)%Z) by (apply g_M; auto).
  destruct (Z.lt_ge_cases (Z.abs fp) TH) as [L|G].
  - destruct (g_sin_tiny fp L) as [E _]. rewrite g_v_abs.
    replace (Z.abs (sin_z M P H T TH A B C D fp)) with (Z.abs fp) by (destruct E as [-> | ->]; lia).
    apply Rle_trans with (v M); [apply g_v_le; lia|rewrite g_v_M; lra].
  - pose proof (g_sin_red_bnd fp) as RB1. destruct (g_poly_acc _ RB1) as [_ PE].
    unfold sin_z. cbv zeta. replace (Z.abs fp <? TH)%Z with false by (clear - G; lia).
    destruct (sin_neg_z M H T fp); [rewrite g_v_opp, Rabs_Ropp|]; exact PE.
Qed.
End GSIN.
