(** exp for the instantiations of SinGen.v. *)
From Coq Require Import ZArith QArith Qreals Reals RMicromega Lia Lra Psatz Bool List.
From Interval Require Import Tactic.
From Verif Require Import Base Fixed Math Spec SpecReal SpecLemmas BaseLemmas FixedLemmas CLemmas InspectProofs MathProofs MathThms PowProofs PowAcc PowOrder RealLemmas StdProofs SinPoly SinProofs SinThms ExpProofs ExpDef PowReal NumThms ExactProofs InLemmas SinGen SinGen2 AtanGen.
Import ListNotations.
Open Scope R_scope.

Section GE.
Variable c : cfg.
Hypothesis HS : sin_cfg c.
Variables A B C D E F EV : Z.
Let M := (2 ^ cf c)%Z.
Let k v := from_fixed_num_value c 63 int64 v.
Hypothesis HA : k 0x01C798ECC0CBC856 = Ok A.
Hypothesis HB : k 0x04745859810836DA = Ok B.
Hypothesis HC : k 0x15CFBB5C306F85F3 = Ok C.
Hypothesis HD : k 0x3FE26186C531F98E = Ok D.
Hypothesis HE : k 0x40014D4407008BB0 = Ok E.
Hypothesis HF : k 0x7FFFF686446F1B43 = Ok F.
Hypothesis HEV : e_v c = Ok EV.
Hypothesis RA : (0 <= A <= M)%Z.
Hypothesis RB : (0 <= B <= M)%Z.
Hypothesis RC : (0 <= C <= M)%Z.
Hypothesis RD : (0 <= D <= M)%Z.
Hypothesis RE : (0 <= E <= M)%Z.
Hypothesis RF : (0 < F <= M)%Z.
Hypothesis REV : (0 < EV <= 4 * M)%Z.

Lemma g_ex_M : (8 <= M)%Z.
Proof using HS. apply (g_M c HS). Qed.
Lemma g_ex_sv n : (0 <= n <= 8 * M)%Z -> valid c n = true.
Proof using HS. intros. apply (g_valid c HS). pose proof g_ex_M as HM. pose proof (g_top c HS) as HT. unfold M in *. lia. Qed.
Lemma g_ex_fm x v : (0 <= x < M)%Z -> (0 <= v <= 6 * M)%Z -> (0 <= fm M x v <= v)%Z.
Proof using HS.
  intros Hx Hv. pose proof g_ex_M as HM. unfold fm. split; [apply Z.div_pos; nia|].
  apply Z.div_le_upper_bound; nia.
Qed.
Lemma g_ex_step x v K : (0 <= x < M)%Z -> (0 <= v <= 5 * M)%Z -> (0 <= K <= M)%Z ->
  (let* r := fx_mul c x v in fx_add c K r) = Ok (K + fm M x v)%Z /\ (0 <= K + fm M x v <= v + M)%Z.
Proof using HS.
  intros Hx Hv HK. pose proof g_ex_M as HM. destruct (g_ex_fm x v Hx ltac:(lia)) as [F0 F1].
  rewrite (g_mul c HS); auto; try (apply g_ex_sv; lia). 2:{ apply g_ex_sv. change (x * v / 2 ^ cf c)%Z with (fm M x v). lia. }
  cbn [bind]. change (x * v / 2 ^ cf c)%Z with (fm M x v). rewrite (g_add c HS); auto; try (apply g_ex_sv; lia). split; auto. lia.
Qed.
Lemma g_exp_poly_eq x : (0 <= x < M)%Z ->
  exp_poly c x = Ok (exp_poly_z M A B C D E F x) /\ (F <= exp_poly_z M A B C D E F x <= 6 * M)%Z.
Proof using HS RF RE RD RC RB RA HA HB HC HD HE HF.
  intros Hx. pose proof g_ex_M as HM.
  destruct (g_ex_step x A B Hx ltac:(lia) RB) as [E1 R1].
  set (h1 := (B + fm M x A)%Z) in *.
  destruct (g_ex_step x h1 C Hx ltac:(lia) RC) as [E2 R2]. set (h2 := (C + fm M x h1)%Z) in *.
  destruct (g_ex_step x h2 D Hx ltac:(lia) RD) as [E3 R3]. set (h3 := (D + fm M x h2)%Z) in *.
  destruct (g_ex_step x h3 E Hx ltac:(lia) RE) as [E4 R4]. set (h4 := (E + fm M x h3)%Z) in *.
  destruct (g_ex_step x h4 F Hx ltac:(lia) ltac:(lia)) as [E5 R5].
  split.
  - unfold exp_poly. change (k 0x01C798ECC0CBC856 = Ok A) in HA. unfold k in *. cbv zeta.
    rewrite HA, HB, HC, HD, HE, HF. cbn [bind].
    destruct (fx_mul c x A) as [r1| | |]; cbn [bind] in E1 |- *; try discriminate E1. rewrite E1. cbn [bind].
    destruct (fx_mul c x h1) as [r2| | |]; cbn [bind] in E2 |- *; try discriminate E2. rewrite E2. cbn [bind].
    destruct (fx_mul c x h2) as [r3| | |]; cbn [bind] in E3 |- *; try discriminate E3. rewrite E3. cbn [bind].
    destruct (fx_mul c x h3) as [r4| | |]; cbn [bind] in E4 |- *; try discriminate E4. rewrite E4. cbn [bind].
    destruct (fx_mul c x h4) as [r5| | |]; cbn [bind] in E5 |- *; try discriminate E5. rewrite E5. reflexivity.
  - unfold exp_poly_z. fold h1 h2 h3 h4. split; [|lia]. destruct (g_ex_fm x h4 Hx ltac:(lia)). lia.
Qed.

Lemma g_exp_expand_eq m : valid c m = true -> (0 <= m)%Z ->
  exists p, fx_pow_int c (ct c) EV (m / M) = Ok p /\ valid c p = true /\
  exp_expand c m = Ok (wrap (ct c) (fm M p (exp_poly_z M A B C D E F (m mod M)))).
Proof using HS REV RF RE RD RC RB RA HA HB HC HD HE HF HEV.
  intros V P. pose proof g_ex_M as HM. pose proof (g_wf c HS) as W. pose proof (g_nr c HS) as NR. pose proof (g_f c HS) as GF.
  assert (IP : integral_part c m = Ok (m / M)%Z).
  { apply integral_nonneg; auto. }
  assert (D0 : (0 <= m / M <= m)%Z) by (split; [apply Z.div_pos; lia|apply Z.div_le_upper_bound; nia]).
  assert (DM : (m = M * (m / M) + m mod M)%Z) by (apply Z.div_mod; lia).
  pose proof (Z.mod_pos_bound m M ltac:(lia)) as B0.
  assert (VR : in_range (ct c) (m / M) = true).
  { apply (g_valid c HS) in V. apply (g_valid c HS). lia. }
  destruct (pow_int_total c W NR (ct c) EV (m / M) (wf_ct c W) VR (g_ex_sv EV ltac:(lia)) ltac:(lia)) as (p & Ep & Vp).
  exists p. split; auto. split; auto.
  unfold exp_expand. rewrite IP. cbn [bind]. unfold fx_sub_assign_int.
  assert (VM : valid c ((m / M) * M) = true).
  { apply (g_valid c HS) in V. apply (g_valid c HS). lia. }
  destruct (g_exp_poly_eq (m mod M) B0) as [EQ RQ].
  match goal with |- context [bind ?a _] => assert (ES : a = Ok (m - m / M * M)%Z) end.
  { rewrite wrap_id by (auto using (g_t_ok c HS)). rewrite c_shl_nn; [|exact (g_t_ok c HS)|destruct HS as (_ & _ & _ & _ & [[-> ?]|[-> ?]]); lia|lia|].
    2:{ rewrite (g_max c HS). apply (g_valid c HS) in VM. fold M. lia. }
    cbn [bind]. fold M.
    pose proof (g_sub c HS m (m / M * M)%Z V VM (g_ex_sv (m - m / M * M) ltac:(lia))) as SS. 
    replace (promote (ct c)) with (ct c) by (destruct (g_t c HS) as [-> | ->]; reflexivity). exact SS. }
  rewrite ES. cbn [bind]. replace (m - m / M * M)%Z with (m mod M)%Z by lia. rewrite HEV. cbn [bind]. rewrite Ep. cbn [bind]. rewrite EQ. cbn [bind].
  rewrite fx_mul_eq; auto. apply g_ex_sv. lia.
Qed.
End GE.

(** the polynomial, over the reals *)
Lemma g_fm_r f a b : (2 <= 2 ^ f)%Z -> rval f a * rval f b - ulp f < rval f (fm (2 ^ f) a b) <= rval f a * rval f b.
Proof. intros H. exact (fm_real (2 ^ f) H a b). Qed.
Lemma g_h_step f X x K v H n : (2 <= 2 ^ f)%Z -> X = rval f x -> 0 <= X <= 1 -> 0 <= n -> H - n * ulp f <= rval f v <= H ->
  rval f K + X * H - (n + 1) * ulp f <= rval f (K + fm (2 ^ f) x v) <= rval f K + X * H.
Proof.
  intros HM -> HX Hn Hv. rewrite rval_add. pose proof (g_fm_r f x v HM) as F. set (w := fm (2 ^ f) x v) in *.
  assert (U : 0 < ulp f) by (apply Rinv_0_lt_compat, IZR_lt; lia). nra.
Qed.
Lemma g_exp_poly_real f A B C D E F x : (2 <= 2 ^ f)%Z -> 0 <= rval f x <= 1 ->
  hq f A B C D E F (rval f x) - 5 * ulp f <= rval f (exp_poly_z (2 ^ f) A B C D E F x) <= hq f A B C D E F (rval f x).
Proof.
  intros HM HX. unfold exp_poly_z, hq.
  assert (H0 : rval f A - 0 * ulp f <= rval f A <= rval f A) by lra.
  pose proof (g_h_step f _ x B _ _ 0 HM eq_refl HX ltac:(lra) H0) as H1.
  pose proof (g_h_step f _ x C _ _ (0 + 1) HM eq_refl HX ltac:(lra) H1) as H2.
  pose proof (g_h_step f _ x D _ _ ((0 + 1) + 1) HM eq_refl HX ltac:(lra) H2) as H3.
  pose proof (g_h_step f _ x E _ _ (((0 + 1) + 1) + 1) HM eq_refl HX ltac:(lra) H3) as H4.
  pose proof (g_h_step f _ x F _ _ ((((0 + 1) + 1) + 1) + 1) HM eq_refl HX ltac:(lra) H4) as H5. lra.
Qed.
Definition hr (a b c d e f X : R) : R := f + X * (e + X * (d + X * (c + X * (b + X * a)))).
Lemma h_near K k u X H h n : 0 <= X <= 1 -> 0 <= u -> 0 <= n -> K - u <= k <= K -> H - n * u <= h <= H ->
  K + X * H - (n + 1) * u <= k + X * h <= K + X * H.
Proof. intros HX Hu Hn Hk Hh. assert (0 <= n * u) by nra. assert (- (n * u) <= X * (h - H) <= 0) by nra. nra. Qed.
Definition k63 (v : Z) : R := IZR v / IZR (2 ^ 63).
Definition hk : R -> R := hr (k63 0x01C798ECC0CBC856) (k63 0x04745859810836DA) (k63 0x15CFBB5C306F85F3) (k63 0x3FE26186C531F98E) (k63 0x40014D4407008BB0) (k63 0x7FFFF686446F1B43).
Lemma hk_real X : 0 <= X <= 1 -> 0.816 * exp X <= hk X <= exp X.
Proof.
  intros H. unfold hk, hr, k63. change (IZR (2 ^ 63)) with 9223372036854775808.
  split; apply Rminus_le; interval with (i_bisect X, i_taylor X, i_prec 60).
Qed.

(** the integral power of e *)
Lemma bern n x : (0 <= n)%Z -> 0 <= x <= 1 -> 1 - IZR n * x <= (1 - x) ^ Z.to_nat n.
Proof.
  intros N X. pattern n. apply natlike_ind; [..|exact N].
  - cbn. lra.
  - intros k K IH. rewrite Z2Nat.inj_succ by auto. cbn [pow]. rewrite succ_IZR.
    assert (0 <= IZR k) by (apply IZR_le; auto). assert (0 <= (1 - x) ^ Z.to_nat k) by (apply pow_le; lra).
    destruct (Rle_lt_dec 0 (1 - IZR k * x)); nra.
Qed.
Lemma g_epow c EV n : sin_cfg c -> e_v c = Ok EV -> IZR EV <= exp 1 * IZR (2 ^ cf c) < IZR EV + 1 -> (0 <= n)%Z ->
  exp (IZR n) <= rval (cf c) (maxv (ct c)) ->
  exists p, fx_pow_int c (ct c) EV n = Ok p /\ valid c p = true /\ (0 <= p)%Z /\
    exp (IZR n) * (1 - 1.4 * IZR n * ulp (cf c)) <= rval (cf c) p <= exp (IZR n).
Proof.
  intros HS _ HE N MX. pose proof (g_wf c HS) as W. pose proof (g_nr c HS) as NR. pose proof (g_f c HS) as F. pose proof (g_M c HS) as HM. pose proof (g_top c HS) as HT.
  assert (E1 : 2.718 < exp 1 < 2.7183) by (split; interval with (i_prec 60)).
  assert (RM : 8 <= IZR (2 ^ cf c)) by (apply IZR_le; lia).
  assert (UU : 0 < ulp (cf c) <= / 8) by (split; [apply Rinv_0_lt_compat; lra|apply Rinv_le_contravar; lra]).
  assert (EB : (2 * 2 ^ cf c < EV < 3 * 2 ^ cf c)%Z) by (split; apply lt_IZR; rewrite mult_IZR; nra).
  assert (VE : valid c EV = true) by (apply (g_valid c HS); lia).
  assert (BE : exp 1 - ulp (cf c) < rval (cf c) EV <= exp 1).
  { unfold rval, ulp. set (K := IZR (2 ^ cf c)) in *. assert (0 < / K) by (apply Rinv_0_lt_compat; lra).
    replace (exp 1) with (exp 1 * K * / K) by (field; lra). unfold Rdiv. nra. }
  assert (IN : (n <= 64)%Z).
  { destruct (Z.le_gt_cases n 64) as [L|G]; auto. exfalso. assert (exp 65 <= exp (IZR n)) by (apply exp_le, IZR_le; lia).
    assert (X : 2 ^ 63 <= exp 65) by (interval with (i_prec 60)).
    rewrite (g_max c HS) in MX. assert (T : (top c <= 2 ^ 63)%Z) by (unfold top; destruct HS as (_ & _ & _ & _ & [[-> _]|[-> _]]); vm_compute; congruence).
    apply IZR_le in T. change (IZR (2 ^ 63)) with 9223372036854775808 in T. unfold rval in MX. rewrite minus_IZR in MX.
    set (K := IZR (2 ^ cf c)) in *. assert (0 < / K <= / 8) by (split; [apply Rinv_0_lt_compat; lra|apply Rinv_le_contravar; lra]). unfold Rdiv in MX. nra. }
  assert (IR : in_range (ct c) n = true) by (apply (g_valid c HS); pose proof (g_top31 c HS); lia).
  assert (PW : forall k, (0 <= k)%Z -> Rpower (rval (cf c) EV) (IZR k) <= exp (IZR k)).
  { intros k K. unfold Rpower. apply exp_le. rewrite <- (Rmult_1_r (IZR k)) at 2. apply Rmult_le_compat_l; [apply IZR_le; auto|].
    rewrite <- (ln_exp 1). destruct (proj2 BE) as [L|Q]; [left; apply ln_increasing; lra|rewrite Q; lra]. }
  assert (PL : exp (IZR n) * (1 - IZR n * (ulp (cf c) / 2.718)) <= Rpower (rval (cf c) EV) (IZR n)).
  { rewrite <- powerRZ_Rpower by lra. replace (powerRZ (rval (cf c) EV) n) with (rval (cf c) EV ^ Z.to_nat n).
    2:{ rewrite pow_powerRZ, Z2Nat.id by auto. reflexivity. }
    assert (EN : exp (IZR n) = exp 1 ^ Z.to_nat n).
    { rewrite <- Rpower_pow by lra. unfold Rpower. rewrite ln_exp, INR_IZR_INZ, Z2Nat.id by auto. f_equal. ring. }
    rewrite EN. set (x := ulp (cf c) / 2.718). assert (HX : 0 <= x <= 1) by (unfold x; lra).
    pose proof (bern n x N HX) as BN. apply Rle_trans with ((exp 1 * (1 - x)) ^ Z.to_nat n).
    - rewrite Rpow_mult_distr. apply Rmult_le_compat_l; [apply pow_le; lra|exact BN].
    - apply pow_incr. unfold x in *. nra. }
  assert (N0 : 0 <= IZR n) by (apply IZR_le; lia). pose proof (exp_pos (IZR n)) as EP.
  destruct (Z.eq_dec n 0) as [->|NZ].
  { exists (2 ^ cf c)%Z. assert (V1 : valid c (1 * 2 ^ cf c) = true) by (apply (g_valid c HS); lia).
    rewrite pow_0 by (auto using (wf_ct c W)). rewrite (g_int c HS) by auto. rewrite Z.mul_1_l in *. split; auto. split; auto. split; [lia|].
    rewrite exp_0. replace (rval (cf c) (2 ^ cf c)) with 1 by (unfold rval; field; lra). lra. }
  assert (SF : sgn (ct c) = true -> (cf c <= bits (ct c) - 2)%Z) by (intros _; destruct HS as (_ & _ & _ & _ & [[-> ?]|[-> ?]]); lia).
  destruct (pow_ge1_accuracy c W NR SF (ct c) EV n (wf_ct c W) IR VE ltac:(lia)) as (p & E & VP & A1 & A2).
  - apply Rle_Qle. rewrite q2r, Q2R_1 by lia. lra.
  - apply Rle_Qle. rewrite q2r_pow, q2r by (try lia; lra). specialize (PW n N). lra.
  - exists p. split; [exact E|]. split; [exact VP|]. apply Qle_Rle in A1. rewrite q2r, q2r_pow in A1 by (try lia; lra).
    apply Qle_Rle in A2. rewrite Q2R_minus, !Q2R_mult, q2r, ulp_q, Q2R_int in A2 by lia.
    rewrite !q2r_pow in A2 by (lra || lia).
    pose proof (PW n N) as P1. pose proof (PW (n - 1)%Z ltac:(lia)) as P2.
    assert (EM : exp (IZR (n - 1)) = exp (IZR n) / exp 1).
    { rewrite minus_IZR. unfold Rminus, Rdiv. rewrite exp_plus, exp_Ropp. reflexivity. }
    set (P := Rpower (rval (cf c) EV) (IZR n)) in *. set (Q := Rpower (rval (cf c) EV) (IZR (n - 1))) in *. set (en := exp (IZR n)) in *.
    assert (Q1 : Q <= en / 2.718).
    { rewrite EM in P2. assert (/ exp 1 <= / 2.718) by (apply Rinv_le_contravar; lra). unfold Rdiv in *. nra. }
    set (u := ulp (cf c)) in *. set (rn := IZR n) in *.
    assert (Q2 : rn * Q * u <= rn * (en / 2.718) * u) by (apply Rmult_le_compat_r; [lra|]; apply Rmult_le_compat_l; lra).
    assert (LB : en * (1 - 1.4 * rn * u) <= rval (cf c) p).
    { assert (0 <= rn * u) by nra. assert (0 <= en * (rn * u)) by nra.
      assert (L1 : en * (1 - rn * (u / 2.718)) - rn * (en / 2.718) * u <= rval (cf c) p) by lra.
      assert (L2 : en * (1 - rn * (u / 2.718)) - rn * (en / 2.718) * u = en - en * (rn * u) * (2 / 2.718)) by (unfold Rdiv; ring).
      rewrite L2 in L1. clear - L1 H0. nra. }
    split; [|split; [exact LB|lra]].
    destruct (pow_exp_order c W NR SF (ct c) EV 0 n (wf_ct c W) IR VE ltac:(lia)) as (p0 & q0 & E0 & Eq & _ & _ & OR & _).
    + apply Rle_Qle. rewrite q2r, RMicromega.Q2R_0 by lia. lra.
    + apply Rle_Qle. rewrite q2r_pow, q2r by (try lia; lra). fold rn. fold P. change (hi (bits (ct c)) (sgn (ct c))) with (maxv (ct c)). lra.
    + rewrite E in Eq. injection Eq as <-. assert (V1 : valid c (1 * 2 ^ cf c) = true) by (apply (g_valid c HS); lia).
      rewrite pow_0 in E0 by (auto using (wf_ct c W)). rewrite (g_int c HS) in E0 by auto. apply ok_inj in E0; subst p0. rewrite Z.mul_1_l in *.
      assert (O1 : (1 <= qval (cf c) EV)%Q) by (apply Rle_Qle; rewrite q2r, Q2R_1 by lia; lra).
      specialize (OR O1). apply Qle_Rle in OR. rewrite !q2r in OR by lia. unfold rval in OR.
      apply le_IZR. apply Rmult_le_reg_r with (/ IZR (2 ^ cf c)); [apply Rinv_0_lt_compat; lra|]. unfold Rdiv in OR. rewrite ?Z.mul_1_l, Rinv_r in OR by lra. lra.
Qed.

Lemma g_exp_pos_eq c m : sin_cfg c -> valid c m = true -> (0 < m)%Z -> fx_exp c m = exp_expand c m.
Proof.
  intros HS V P. assert (V0 : valid c (0 * 2 ^ cf c) = true) by (apply (g_valid c HS); pose proof (g_top31 c HS); lia).
  unfold fx_exp. rewrite (g_int c HS) by auto. rewrite Z.mul_0_l in *. cbn [bind].
  rewrite fx_eq_eq, fx_lt_eq by (auto using (g_wf c HS)). replace (m =? 0)%Z with false by lia. replace (m <? 0)%Z with false by lia. reflexivity.
Qed.
Lemma g_exp_neg_eq c m d : sin_cfg c -> valid c m = true -> (0 < m)%Z -> exp_expand c m = Ok d -> valid c d = true -> d <> 0%Z ->
  fx_exp c (- m) = Ok (wrap (ct c) (Z.quot (2 ^ cf c * 2 ^ cf c) d)).
Proof.
  intros HS V P E Vd ND. pose proof (g_M c HS) as HM. pose proof (g_top c HS) as HT.
  assert (V0 : valid c (0 * 2 ^ cf c) = true) by (apply (g_valid c HS); lia).
  assert (V1 : valid c (1 * 2 ^ cf c) = true) by (apply (g_valid c HS); lia).
  assert (Vn : valid c (- m) = true) by (apply (g_valid c HS) in V; apply (g_valid c HS); lia).
  unfold fx_exp. rewrite (g_int c HS 0) by auto. rewrite Z.mul_0_l in *. cbn [bind].
  rewrite fx_eq_eq, fx_lt_eq by (auto using (g_wf c HS)). replace (- m =? 0)%Z with false by lia. replace (- m <? 0)%Z with true by lia.
  rewrite (g_neg c HS) by (rewrite ?Z.opp_involutive; auto). cbn [bind]. rewrite Z.opp_involutive, E. cbn [bind].
  rewrite (g_int c HS 1) by auto. cbn [bind]. rewrite Z.mul_1_l in *. apply fx_div_eq; auto using (g_wf c HS), (g_nr c HS).
Qed.

(** e^x - 1 part: floor(p q) against exp *)
Lemma g_expand c m : sin_cfg c -> valid c m = true -> (0 <= m)%Z -> exp (rval (cf c) m) <= rval (cf c) (maxv (ct c)) ->
  exists d, exp_expand c m = Ok d /\ valid c d = true /\ (0 <= d)%Z /\
    (0.816 - (12 + 1.4 * rval (cf c) m) * ulp (cf c)) * exp (rval (cf c) m) <= rval (cf c) d <= exp (rval (cf c) m) /\
    rval (cf c) d <= exp (IZR (m / 2 ^ cf c)) * hk (rval (cf c) (m mod 2 ^ cf c)).
Proof.
  intros HS V P MX. pose proof (g_f c HS) as F. pose proof (g_M c HS) as HM. pose proof (g_top c HS) as HT. 
  destruct (g_lit c 63 0x01C798ECC0CBC856 HS ltac:(lia) ltac:(split; [discriminate|reflexivity])) as (EA & RA & LA).
  destruct (g_lit c 63 0x04745859810836DA HS ltac:(lia) ltac:(split; [discriminate|reflexivity])) as (EB & RB & LB).
  destruct (g_lit c 63 0x15CFBB5C306F85F3 HS ltac:(lia) ltac:(split; [discriminate|reflexivity])) as (EC & RC & LC).
  destruct (g_lit c 63 0x3FE26186C531F98E HS ltac:(lia) ltac:(split; [discriminate|reflexivity])) as (ED & RD & LD).
  destruct (g_lit c 63 0x40014D4407008BB0 HS ltac:(lia) ltac:(split; [discriminate|reflexivity])) as (EE & RE & LE).
  destruct (g_lit c 63 0x7FFFF686446F1B43 HS ltac:(lia) ltac:(split; [discriminate|reflexivity])) as (EF & RF & LF).
  match type of EA with _ = Ok ?x => set (a := x) in * end. match type of EB with _ = Ok ?x => set (b := x) in * end.
  match type of EC with _ = Ok ?x => set (c0 := x) in * end. match type of ED with _ = Ok ?x => set (d0 := x) in * end.
  match type of EE with _ = Ok ?x => set (e0 := x) in * end. match type of EF with _ = Ok ?x => set (f0 := x) in * end.
  clearbody a b c0 d0 e0 f0.
  assert (RM : 8 <= IZR (2 ^ cf c)) by (apply IZR_le; lia).
  assert (UU : 0 < ulp (cf c) <= / 8) by (split; [apply Rinv_0_lt_compat; lra|apply Rinv_le_contravar; lra]).
  assert (F0 : (0 < f0)%Z).
  { apply lt_IZR. apply Rmult_lt_reg_r with (/ IZR (2 ^ cf c)); [apply Rinv_0_lt_compat; lra|]. rewrite Rmult_0_l.
    change (IZR f0 * / IZR (2 ^ cf c)) with (rval (cf c) f0). change (IZR (2 ^ 63)) with 9223372036854775808 in LF. lra. }
  destruct (g_const c (fx_e c) (exp 1) HS ltac:(cbn; tauto) ltac:(interval)) as (EV & HEV & BEV).
  change (fx_e c) with (e_v c) in HEV.
  assert (EVB : (0 < EV <= 4 * 2 ^ cf c)%Z).
  { assert (2.7 < exp 1 < 2.8) by (split; interval). split; [apply lt_IZR|apply le_IZR; rewrite mult_IZR]; nra. }
  destruct (g_exp_expand_eq c HS a b c0 d0 e0 f0 EV EA EB EC ED EE EF HEV ltac:(lia) ltac:(lia) ltac:(lia) ltac:(lia) ltac:(lia) ltac:(lia) EVB m V P) as (p & Ep & Vp & EX).
  pose proof (g_exp_poly_eq c HS a b c0 d0 e0 f0 EA EB EC ED EE EF ltac:(lia) ltac:(lia) ltac:(lia) ltac:(lia) ltac:(lia) ltac:(lia)) as PE.
  set (f := cf c) in *. set (n := (m / 2 ^ f)%Z) in *. set (x := (m mod 2 ^ f)%Z) in *.
  assert (DM : (m = 2 ^ f * n + x)%Z) by (apply Z.div_mod; lia). pose proof (Z.mod_pos_bound m (2 ^ f) ltac:(lia)) as B0. fold x in B0.
  assert (N0 : (0 <= n)%Z) by (apply Z.div_pos; lia).
  assert (EM : rval f m = IZR n + rval f x).
  { rewrite DM at 1. rewrite rval_add. f_equal. unfold rval. rewrite mult_IZR. field. lra. }
  assert (X01 : 0 <= rval f x <= 1).
  { split; [apply rval_0; lia|]. unfold rval. apply Rmult_le_reg_r with (IZR (2 ^ f)); [lra|]. unfold Rdiv. rewrite Rmult_assoc, Rinv_l, Rmult_1_r, Rmult_1_l by lra.
    apply IZR_le. lia. }
  assert (NM : exp (IZR n) <= rval f (maxv (ct c))) by (apply Rle_trans with (exp (rval f m)); [apply exp_le; lra|exact MX]).
  destruct (g_epow c EV n HS HEV BEV N0 NM) as (p' & Ep' & _ & P0 & BP). fold f in BP. rewrite Ep in Ep'. injection Ep' as <-.
  pose proof (PE x B0) as (_ & Q0).
  pose proof (g_exp_poly_real f a b c0 d0 e0 f0 x ltac:(lia) X01) as PQ.
  set (q := exp_poly_z (2 ^ f) a b c0 d0 e0 f0 x) in *.
  assert (HN : hk (rval f x) - 6 * ulp f <= hq f a b c0 d0 e0 f0 (rval f x) <= hk (rval f x)).
  { unfold hq, hk, hr. set (X := rval f x) in *. set (u := ulp f) in *. assert (u0 : 0 <= u) by lra.
    assert (S0 : k63 0x01C798ECC0CBC856 - 1 * u <= rval f a <= k63 0x01C798ECC0CBC856) by (unfold k63; lra).
    pose proof (h_near (k63 0x04745859810836DA) (rval f b) u X _ _ 1 X01 u0 ltac:(lra) ltac:(unfold k63; split; lra) S0) as S1.
    pose proof (h_near (k63 0x15CFBB5C306F85F3) (rval f c0) u X _ _ (1 + 1) X01 u0 ltac:(lra) ltac:(unfold k63; split; lra) S1) as S2.
    pose proof (h_near (k63 0x3FE26186C531F98E) (rval f d0) u X _ _ (1 + 1 + 1) X01 u0 ltac:(lra) ltac:(unfold k63; split; lra) S2) as S3.
    pose proof (h_near (k63 0x40014D4407008BB0) (rval f e0) u X _ _ (1 + 1 + 1 + 1) X01 u0 ltac:(lra) ltac:(unfold k63; split; lra) S3) as S4.
    pose proof (h_near (k63 0x7FFFF686446F1B43) (rval f f0) u X _ _ (1 + 1 + 1 + 1 + 1) X01 u0 ltac:(lra) ltac:(unfold k63; split; lra) S4) as S5. lra. }
  pose proof (hk_real _ X01) as HK.
  pose proof (g_fm_r f p q ltac:(lia)) as FR. 
  assert (W0 : (0 <= fm (2 ^ f) p q)%Z) by (unfold fm; apply Z.div_pos; [apply Z.mul_nonneg_nonneg; lia|lia]).
  set (w := fm (2 ^ f) p q) in *.
  pose proof (exp_pos (IZR n)) as E1. pose proof (exp_pos (rval f x)) as E2.
  assert (EE1 : exp (rval f m) = exp (IZR n) * exp (rval f x)) by (rewrite EM; apply exp_plus).
  assert (PP : 0 <= rval f p) by (apply rval_0; lia). assert (QQ : 0 <= rval f q) by (apply rval_0; lia).
  assert (N1 : 0 <= IZR n <= rval f m) by (split; [apply IZR_le; lia|lra]).
  assert (X1 : 1 <= exp (rval f x)) by (rewrite <- exp_0; apply exp_le; lra).
  assert (M1 : 1 <= exp (IZR n)) by (rewrite <- exp_0; apply exp_le; lra).
  set (en := exp (IZR n)) in *. set (ex := exp (rval f x)) in *. set (u := ulp f) in *.
  assert (UP : rval f p * rval f q <= en * ex) by (apply Rmult_le_compat; lra).
  assert (VW : valid c w = true).
  { apply (g_valid c HS). split; [lia|]. rewrite (g_max c HS) in MX.
    assert (rval f w <= rval f (top c - 1)) by (rewrite EE1 in MX; lra).
    assert (w <= top c - 1)%Z; [|lia]. apply le_IZR. apply Rmult_le_reg_r with (/ IZR (2 ^ f)); [apply Rinv_0_lt_compat; lra|]. exact H. }
  exists w. split; [rewrite EX; f_equal; apply valid_wrap; auto using (g_wf c HS)|]. split; [exact VW|]. split; [exact W0|].
  assert (UP2 : rval f p * rval f q <= en * hk (rval f x)) by (apply Rmult_le_compat; lra).
  rewrite EE1. split; [|lra]. split; [|lra].
  assert (QL : 0.816 * ex - 11 * u <= rval f q) by lra.
  set (rm := rval f m) in *. set (rn := IZR n) in *.
  set (A := 1.4 * rn * u). assert (A0 : 0 <= A) by (unfold A; nra). assert (A1 : A <= 1.4 * rm * u) by (unfold A; nra).
  destruct (Rle_lt_dec 0 (0.816 - (12 + 1.4 * rm) * u)) as [G|G].
  2:{ assert (R0 : 0 <= rval f w) by (apply rval_0; lia). assert (R1 : 0 < en * ex) by (apply Rmult_lt_0_compat; lra). clear - R0 R1 G. nra. }
  assert (RMU : 0 <= rm * u) by (apply Rmult_le_pos; lra).
  assert (QP : 0 <= 0.816 * ex - 11 * u) by (clear - G RMU X1 UU; lra).
  assert (AP : 0 <= 1 - A) by (clear - G RMU A1 UU; lra).
  assert (LB1 : en * (1 - A) * (0.816 * ex - 11 * u) <= rval f p * rval f q).
  { apply Rmult_le_compat; [apply Rmult_le_pos; lra|exact QP|unfold A; lra|exact QL]. }
  clearbody A. assert (u0 : 0 < u) by lra.
  assert (G1 : 1 <= en * ex) by (clear - X1 M1; nra).
  assert (G2 : en <= en * ex) by (clear - X1 E1; nra).
  set (y := en * ex) in *. assert (H : u <= u * y) by (clear - u0 G1; nra).
  assert (H0 : en * u <= y * u) by (apply Rmult_le_compat_r; lra).
  assert (EA0 : 0 <= en * A) by (clear - E1 A0; nra).
  assert (T : y * (0.816 - A) - 11 * (en * u) <= en * (1 - A) * (0.816 * ex - 11 * u)).
  { assert (T1 : 0 <= en * A * ex) by (apply Rmult_le_pos; lra). assert (T2 : 0 <= en * A * u) by (apply Rmult_le_pos; lra).
    replace (en * (1 - A) * (0.816 * ex - 11 * u)) with (0.816 * y - 11 * (en * u) - 0.816 * (en * A * ex) + 11 * (en * A * u)) by (unfold y; ring).
    replace (y * (0.816 - A)) with (0.816 * y - en * A * ex) by (unfold y; ring). lra. }
  assert (T3 : y * A <= y * (1.4 * rm * u)) by (apply Rmult_le_compat_l; lra).
  replace ((0.816 - (12 + 1.4 * rm) * u) * y) with (0.816 * y - 12 * (y * u) - y * (1.4 * rm * u)) by ring.
  replace (y * (0.816 - A)) with (0.816 * y - y * A) in T by ring. lra.
Qed.

Theorem exp_gen c m : sin_cfg c -> valid c m = true -> exp (Rabs (rval (cf c) m)) <= rval (cf c) (maxv (ct c)) ->
  ((0 <= m)%Z -> exists r, fx_exp c m = Ok r /\ valid c r = true /\
    (0.816 - (12 + 1.4 * rval (cf c) m) * ulp (cf c)) * exp (rval (cf c) m) <= rval (cf c) r <= exp (rval (cf c) m)) /\
  ((m < 0)%Z -> (12 + 1.4 * Rabs (rval (cf c) m)) * ulp (cf c) <= 0.016 -> exists r, fx_exp c m = Ok r /\ valid c r = true /\
    exp (rval (cf c) m) - ulp (cf c) < rval (cf c) r <= 1.25 * exp (rval (cf c) m)).
Proof.
  intros HS V MX. pose proof (g_f c HS) as F. pose proof (g_M c HS) as HM. pose proof (g_top c HS) as HT.
  assert (RM : 8 <= IZR (2 ^ cf c)) by (apply IZR_le; lia).
  assert (UU : 0 < ulp (cf c) <= / 8) by (split; [apply Rinv_0_lt_compat; lra|apply Rinv_le_contravar; lra]).
  set (f := cf c) in *. split.
  - intros P. assert (0 <= rval f m) by (apply rval_0; lia). rewrite Rabs_pos_eq in MX by auto.
    destruct (Z.eq_dec m 0) as [->|NZ].
    + exists (2 ^ f)%Z. assert (V0 : valid c (0 * 2 ^ cf c) = true) by (apply (g_valid c HS); lia). assert (V1 : valid c (1 * 2 ^ cf c) = true) by (apply (g_valid c HS); fold f; lia).
      unfold fx_exp. rewrite (g_int c HS 0) by auto. rewrite Z.mul_0_l in V0 |- *. cbn [bind]. rewrite fx_eq_eq by (auto using (g_wf c HS)). cbn [Z.eqb].
      rewrite (g_int c HS 1) by auto. rewrite Z.mul_1_l in *. fold f. split; auto. split; auto.
      replace (rval f 0) with 0 by (unfold rval; lra). replace (rval f (2 ^ f)) with 1 by (unfold rval; field; lra). rewrite exp_0. lra.
    + rewrite (g_exp_pos_eq c m HS V) by lia. destruct (g_expand c m HS V P MX) as (d & E & Vd & _ & B & _). exists d. auto.
  - intros N SM. assert (0 < rval f (- m)).
    { unfold rval. apply Rmult_lt_0_compat; [apply IZR_lt; lia|apply Rinv_0_lt_compat; lra]. }
    assert (RN : Rabs (rval f m) = rval f (- m)) by (rewrite rval_opp in *; rewrite Rabs_left by lra; reflexivity).
    rewrite RN in MX, SM.
    assert (V' : valid c (- m) = true).
    { destruct (Z.eq_dec m (- top c)) as [->|NT]; [|apply (g_valid c HS) in V; apply (g_valid c HS); lia]. exfalso.
      rewrite Z.opp_involutive, (g_max c HS) in MX. pose proof (exp_ineq1 (rval f (top c))) as X.
      rewrite Z.opp_involutive in H. specialize (X ltac:(lra)).
      assert (rval f (top c - 1) <= rval f (top c)) by (unfold rval; apply Rmult_le_compat_r; [left; apply Rinv_0_lt_compat; lra|apply IZR_le; lia]). lra. }
    destruct (g_expand c (- m) HS V' ltac:(lia) MX) as (d & E & Vd & D0 & B & _). fold f in B.
    set (X := exp (rval f (- m))) in *. assert (X1 : 1 <= X) by (unfold X; rewrite <- exp_0; apply exp_le; lra).
    assert (B8 : 0.8 * X <= rval f d <= X) by nra.
    set (vd := rval f d) in *. set (K := IZR (2 ^ f)) in *.
    assert (EDv : IZR d = vd * K) by (unfold vd, rval; fold K; field; lra).
    assert (Dp : (0 < d)%Z) by (apply lt_IZR; rewrite EDv; nra).
    replace m with (- - m)%Z by lia. rewrite (g_exp_neg_eq c (- m) d HS V') by (auto; lia). fold f.
    rewrite Z.quot_div_nonneg by nia. set (r := (2 ^ f * 2 ^ f / d)%Z).
    pose proof (div_real (2 ^ f * 2 ^ f) d Dp) as DR. fold r in DR. rewrite mult_IZR in DR. fold K in DR. rewrite EDv in DR.
    replace (K * K / (vd * K)) with (K * / vd) in DR by (field; split; lra).
    assert (I1 : / X <= / vd) by (apply Rinv_le_contravar; lra).
    assert (I0 : 0 < / X) by (apply Rinv_0_lt_compat; lra).
    assert (I2 : / vd <= 1.25 * / X).
    { apply Rmult_le_reg_r with vd; [lra|]. rewrite Rinv_l by lra. assert (Y : / X * (0.8 * X) <= / X * vd) by (apply Rmult_le_compat_l; lra).
      replace (/ X * (0.8 * X)) with 0.8 in Y by (replace (/ X * (0.8 * X)) with (0.8 * (/ X * X)) by ring; rewrite Rinv_l by lra; ring). lra. }
    assert (IX : / X <= 1) by (apply Rmult_le_reg_r with X; [lra|rewrite Rinv_l by lra; lra]).
    assert (R0 : (0 <= r)%Z) by (unfold r; apply Z.div_pos; [apply Z.mul_nonneg_nonneg; lia|lia]).
    assert (R2 : (r <= 2 * 2 ^ f)%Z) by (apply le_IZR; rewrite mult_IZR; fold K; assert (K * / vd <= K * 1.25) by (apply Rmult_le_compat_l; lra); lra).
    exists r. assert (Vr : valid c r = true) by (apply (g_valid c HS); fold f in HT; lia).
    split; [f_equal; apply valid_wrap; auto using (g_wf c HS)|]. split; [exact Vr|]. rewrite Z.opp_involutive.
    assert (EI : / X = exp (rval f m)) by (unfold X; rewrite rval_opp, <- exp_Ropp; f_equal; ring). rewrite <- EI.
    unfold rval, ulp. fold K. assert (0 < / K) by (apply Rinv_0_lt_compat; lra).
    assert (KK : K * / vd * / K = / vd) by (field; split; lra). unfold Rdiv. split.
    + assert ((K * / vd - 1) * / K < IZR r * / K) by (apply Rmult_lt_compat_r; lra). lra.
    + assert (IZR r * / K <= K * / vd * / K) by (apply Rmult_le_compat_r; lra). lra.
Qed.
(** the linear coefficient of the quintic stands for 0.50004, not 1.00008: e^(1/2) is 0.25 too small whatever the instantiation *)
Theorem exp_half c : sin_cfg c -> exists r, fx_exp c (2 ^ (cf c - 1)) = Ok r /\ rval (cf c) (2 ^ (cf c - 1)) = / 2 /\ rval (cf c) r <= exp (/ 2) - 0.25.
Proof.
  intros HS. pose proof (g_f c HS) as F. pose proof (g_M c HS) as HM. pose proof (g_top c HS) as HT.
  assert (H2 : (2 ^ cf c = 2 * 2 ^ (cf c - 1))%Z) by (rewrite <- Z.pow_succ_r by lia; f_equal; lia).
  assert (P : (0 < 2 ^ (cf c - 1))%Z) by (apply pow2_pos; lia).
  assert (RM : 8 <= IZR (2 ^ cf c)) by (apply IZR_le; lia).
  assert (HV : rval (cf c) (2 ^ (cf c - 1)) = / 2).
  { unfold rval. rewrite H2, mult_IZR in *. field. lra. }
  assert (V : valid c (2 ^ (cf c - 1)) = true) by (apply (g_valid c HS); lia).
  pose proof (g_room c 2 HS ltac:(lra)) as RO.
  assert (UU : 0 < ulp (cf c)) by (apply Rinv_0_lt_compat; lra).
  destruct (g_expand c _ HS V ltac:(lia)) as (d & E & Vd & _ & _ & B).
  { rewrite HV. apply Rle_trans with 2; [interval|lra]. }
  exists d. rewrite (g_exp_pos_eq c _ HS V P). split; [exact E|]. split; [exact HV|].
  rewrite Z.div_small, Z.mod_small, HV, exp_0, Rmult_1_l in B by lia.
  apply Rle_trans with (1 := B). unfold hk, hr, k63. change (IZR (2 ^ 63)) with 9223372036854775808. interval.
Qed.
