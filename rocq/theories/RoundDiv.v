(** Quotients with rounding=true. *)
From Coq Require Import ZArith Zquot QArith Qabs Lia Bool.
From Verif Require Import Base Fixed Spec BaseLemmas SpecLemmas FixedLemmas ArithProofs.
Open Scope Z_scope.

Lemma vr_signed I z y : 8 <= I -> - I <= 2 * z < I -> y <> 0 -> ~ (2 * z = - I /\ y = -1) ->
  let v := Z.quot (2 * z) y in - I <= v <= I - 1 /\ - I <= v + Z.rem v 2 <= I - 1.
Proof.
  intros I0 B N EX v. destruct (Z.eq_dec (Z.abs y) 1) as [A|A].
  - assert (QE : v = 2 * z \/ v = - (2 * z) /\ y = -1).
    { assert (y = 1 \/ y = -1) as [Y1|Y1] by (clear - A; lia); unfold v; rewrite Y1; [left; apply Z.quot_1_r|right]. split; [|reflexivity].
      replace (-1) with (- (1)) by reflexivity. rewrite Z.quot_opp_r, Z.quot_1_r by lia. reflexivity. }
    assert (O : Z.rem v 2 = 0) by (destruct QE as [-> |[-> _]]; [|replace (- (2 * z)) with (2 * - z) by ring]; rewrite Z.mul_comm; apply Z.rem_mul; lia).
    rewrite O. clear - QE B EX. lia.
  - assert (AB : 2 * Z.abs v <= Z.abs (2 * z)).
    { pose proof (Z.mul_quot_le (Z.abs (2 * z)) (Z.abs y) ltac:(clear; lia) ltac:(clear - N; lia)) as MQ. rewrite Z.quot_abs in MQ by auto. fold v in MQ. clear - MQ A N. nia. }
    pose proof (Z.rem_bound_abs v 2 ltac:(lia)) as RB. clear - AB RB B I0. lia.
Qed.
Lemma vr_unsigned I z y : 0 <= 2 * z < I -> 0 < y ->
  let v := Z.quot (2 * z) y in 0 <= v <= I - 1 /\ 0 <= v + Z.rem v 2 <= I - 1.
Proof.
  intros B N v. pose proof (Z.quot_pos (2 * z) y ltac:(lia) ltac:(lia)) as QP. fold v in QP. pose proof (Z.rem_bound_pos v 2 QP ltac:(lia)) as RN.
  destruct (Z.eq_dec y 1) as [A|A].
  - assert (V : v = 2 * z) by (unfold v; rewrite A; apply Z.quot_1_r). assert (O : Z.rem v 2 = 0) by (rewrite V, Z.mul_comm; apply Z.rem_mul; lia). clear - V O B. lia.
  - pose proof (Z.quot_rem' (2 * z) y) as QR. fold v in QR. pose proof (Z.rem_bound_pos (2 * z) y ltac:(lia) N) as RB.
    assert (2 * v <= 2 * z) by (pose proof (Z.mul_nonneg_nonneg (y - 2) v ltac:(clear - A N; lia) QP) as MN; clear - QR RB MN; lia). pose proof (Z.rem_le v 2 QP ltac:(lia)) as RL. clear - H B RN RL QP. lia.
Qed.
Lemma div_round_eq c x y : wf c = true -> cr c = true -> valid c x = true -> valid c y = true -> y <> 0 ->
  ~ (sgn (ct c) = true /\ x = - 2 ^ (bits (ct c) - 1) /\ y = -1) ->
  fx_div c x y = let v := Z.quot (2 * (x * 2 ^ cf c)) y in Ok (wrap (ct c) (v + Z.rem v 2)).
Proof.
  intros H R X Y N EX. unfold fx_div. rewrite R, c_shl_ci by auto. cbn [bind].
  destruct (wf_bnd c H) as (Hb & Ht & Hi & Hs & Hg & Hf). pose proof (wf_pows c H) as W. cbv zeta in W.
  pose proof (promote_ok _ Hi) as Hp. destruct (shifted_bounds c x H X) as (B1 & B2).
  destruct (valid_bounds c y H Y) as (_ & Y2 & Y3). destruct (valid_bounds c x H X) as (X1 & X2 & X3).
  assert (D : in_range (ci c) (2 * (x * 2 ^ cf c)) = true).
  { unfold in_range, minv, maxv. rewrite Hg. destruct W as (_ & _ & _ & _ & _ & W6). destruct (sgn (ct c)); [specialize (B1 eq_refl); clear - B1|specialize (B2 eq_refl); rewrite W6; clear - B2]; lia. }
  assert (M : c_mul (promote (ci c)) int32 (x * 2 ^ cf c) 2 = Ok (2 * (x * 2 ^ cf c))).
  { unfold c_mul. rewrite uac_i32 by auto. rewrite (wrap_id _ (x * 2 ^ cf c)) by (auto; apply promote_range; auto using shifted_ci).
    rewrite (wrap_id _ 2) by (auto; apply in_range_small; auto; clear; lia). rewrite Z.mul_comm. apply arith_ok; auto. apply promote_range; auto. }
  rewrite M. cbn [bind]. clear M. set (d := 2 * (x * 2 ^ cf c)) in *.
  assert (VR : in_range (ci c) (Z.quot d y) = true /\ in_range (ci c) (Z.quot d y + Z.rem (Z.quot d y) 2) = true).
  { unfold in_range, minv, maxv. rewrite Hg. destruct (sgn (ct c)) eqn:S.
    - specialize (B1 eq_refl). specialize (X2 eq_refl). set (I := 2 ^ (bits (ci c) - 1)) in *.
      assert (I0 : 8 <= I) by (clear - Hb Hs I; unfold I; change 8 with (2 ^ 3); apply Z.pow_le_mono_r; lia).
      destruct (vr_signed I (x * 2 ^ cf c) y I0 B1 N) as (V1 & V2).
      + intros (E & Y1). apply EX. repeat split; auto. remember (2 ^ (bits (ct c) - 1)) as P. remember (2 ^ cf c) as F. destruct W as (_ & W1 & W2 & W3 & W4 & _).
        assert (- P <= x) by (clear - X1; lia). assert (~ - P < x); [|clear - H0 H1; lia]. intros L. clear - E L H0 W1 W2 W3 W4 X2. nia.
      + fold d in V1, V2. clear - V1 V2. lia.
    - specialize (B2 eq_refl). specialize (Y3 eq_refl).
      assert (W2 : 2 ^ bits (ci c) = 2 * 2 ^ (bits (ci c) - 1)) by (destruct W as (_ & _ & _ & _ & _ & W6); exact W6).
      rewrite W2. destruct (vr_unsigned (2 * 2 ^ (bits (ci c) - 1)) (x * 2 ^ cf c) y B2 ltac:(clear - Y3 N; lia)) as (V1 & V2). fold d in V1, V2. clear - V1 V2. lia. }
  destruct VR as [V1 V2].
  assert (DV : c_div (promote (ci c)) (ct c) d y = Ok (Z.quot d y)).
  { unfold c_div. rewrite uac_ci_ct by auto. rewrite (wrap_it c y) by auto. rewrite wrap_id by (auto; apply promote_range; auto).
    replace (y =? 0) with false by (symmetry; apply Z.eqb_neq; auto). apply arith_ok; auto. apply promote_range; auto. }
  rewrite DV. cbn [bind]. apply round_tail_eq; auto.
Qed.

Lemma quot_away d y : y <> 0 -> let v := Z.quot d y in Z.abs ((v + Z.rem v 2) * y - d) <= Z.abs y.
Proof.
  assert (P : forall d y, 0 <= d -> 0 < y -> Z.abs ((Z.quot d y + Z.rem (Z.quot d y) 2) * y - d) <= y).
  { clear d y. intros d y D Y. pose proof (Z.quot_rem' d y) as QR. pose proof (Z.rem_bound_pos d y D Y) as RB.
    pose proof (Z.quot_pos d y D Y) as V. pose proof (Z.rem_bound_pos (Z.quot d y) 2 V ltac:(lia)) as RV.
    assert (E : Z.rem (Z.quot d y) 2 = 0 \/ Z.rem (Z.quot d y) 2 = 1) by lia. clear RV. destruct E as [-> | ->]; lia. }
  assert (Q : forall d y, 0 <= d -> y <> 0 -> Z.abs ((Z.quot d y + Z.rem (Z.quot d y) 2) * y - d) <= Z.abs y).
  { clear d y. intros d y D Y. destruct (Z.lt_ge_cases 0 y) as [Y0|Y0]; [specialize (P d y D Y0); lia|].
    specialize (P d (- y) D ltac:(lia)). rewrite Z.quot_opp_r in P by auto. rewrite Z.rem_opp_l in P by lia.
    replace ((- (d ÷ y) + - Z.rem (d ÷ y) 2) * - y - d) with ((d ÷ y + Z.rem (d ÷ y) 2) * y - d) in P by ring. lia. }
  intros N v. subst v. destruct (Z.le_gt_cases 0 d) as [D|D]; [apply Q; auto|].
  specialize (Q (- d) y ltac:(lia) N). rewrite Z.quot_opp_l in Q by auto. rewrite Z.rem_opp_l in Q by lia.
  replace ((- (d ÷ y) + - Z.rem (d ÷ y) 2) * y - - d) with (- ((d ÷ y + Z.rem (d ÷ y) 2) * y - d)) in Q by ring. lia.
Qed.

(** the result is within one ulp of TWICE the exact quotient *)
Lemma div_round_thm c x y : wf c = true -> cr c = true -> valid c x = true -> valid c y = true -> y <> 0 ->
  ~ (sgn (ct c) = true /\ x = - 2 ^ (bits (ct c) - 1) /\ y = -1) ->
  exists m r, fx_div c x y = Ok m /\ valid c m = true /\ cong (bits (ct c)) m r /\
    (Qabs (qval (cf c) r - 2 * (qval (cf c) x / qval (cf c) y)) <= qval (cf c) 1)%Q.
Proof.
  intros H R X Y N EX. rewrite div_round_eq by auto. cbv zeta. set (v := Z.quot (2 * (x * 2 ^ cf c)) y).
  exists (wrap (ct c) (v + Z.rem v 2)), (v + Z.rem v 2). split; [reflexivity|]. repeat split.
  - apply valid_wrap_valid; auto.
  - apply wrap_cong, wf_ct; auto.
  - destruct (wf_bnd c H) as (_ & _ & _ & _ & _ & F). pose proof (pow2_pos (cf c) ltac:(lia)) as P.
    rewrite qval_div by lia.
    assert (B : Z.abs ((v + Z.rem v 2) * y - 2 * (x * 2 ^ cf c)) <= Z.abs y).
    { apply quot_away; auto. }
    set (s := v + Z.rem v 2) in *. clearbody s. clear v.
    apply Qabs_Qle_condition. unfold qval, Qle, Qminus, Qplus, Qopp, Qmult; cbn [Qnum Qden]. rewrite !Pos2Z.inj_mul, !pow2p_pos by lia.
    rewrite Z2Pos.id by lia. assert (T : y * Z.sgn y = Z.abs y) by lia. set (G := 2 ^ cf c) in *. set (A := Z.abs y) in *. set (g := Z.sgn y) in *.
    assert (B2 : Z.abs (s * A - 2 * (x * g) * G) <= A).
    { replace (s * A - 2 * (x * g) * G) with (g * (s * y - 2 * (x * G))) by (rewrite <- T; ring). rewrite Z.abs_mul.
      assert (Z.abs g = 1) as -> by lia. lia. }
    clear - B2 P. set (w := 2 * (x * g) * G) in *. replace (- (2 * (x * g)) * G) with (- w) by (unfold w; ring). clearbody w. split; nia.
Qed.
