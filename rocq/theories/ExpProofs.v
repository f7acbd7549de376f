(** exp: definedness and error analysis. *)
From Coq Require Import ZArith Reals Lia Lra Psatz Bool.
From Interval Require Import Tactic.
From Verif Require Import Base Fixed Math Spec SpecReal BaseLemmas FixedLemmas CLemmas InspectProofs MathProofs PowProofs RealLemmas StdProofs SinPoly.
Open Scope R_scope.

Definition exp_poly_z (M A B C D E F x : Z) : Z :=
  (F + fm M x (E + fm M x (D + fm M x (C + fm M x (B + fm M x A)))))%Z.

Section E.
Variable c : cfg.
Hypothesis HS : std c.
Variables A B C D E F EV : Z.
Let M := (2 ^ cf c)%Z.
Let k v := from_fixed_num_value c 63 int64 v.
Hypothesis HA : k 0x01C798ECC0CBC856 = Ok A.
Hypothesis HB : k 0x04745859810836DA = Ok B.
Hypothesis HC : k 0x15CFBB5C306F85F3 = Ok C.
Hypothesis HD : k 0x3FE26186C531F98E = Ok D.
Hypothesis HE : k 0x40014D4407008BB0 = Ok E.
Hypothesis HF : k 0x7FFFF686446F1B43 = Ok F.
Hypothesis HEV : e_v c = Ok EV.
Hypothesis RA : (0 <= A <= M)%Z.
Hypothesis RB : (0 <= B <= M)%Z.
Hypothesis RC : (0 <= C <= M)%Z.
Hypothesis RD : (0 <= D <= M)%Z.
Hypothesis RE : (0 <= E <= M)%Z.
Hypothesis RF : (0 < F <= M)%Z.
Hypothesis REV : (0 < EV <= 4 * M)%Z.

Lemma ex_M : (65536 <= M)%Z.
Proof using HS. apply (std_M c HS). Qed.
Lemma ex_sv n : (0 <= n <= 8 * M)%Z -> valid c n = true.
Proof using HS. intros. apply std_valid; auto. pose proof ex_M as HM. unfold M in *. nia. Qed.
Lemma ex_fm x v : (0 <= x < M)%Z -> (0 <= v <= 6 * M)%Z -> (0 <= fm M x v <= v)%Z.
Proof using HS.
  intros Hx Hv. pose proof ex_M as HM. unfold fm. split; [apply Z.div_pos; nia|].
  apply Z.div_le_upper_bound; nia.
Qed.
Lemma ex_step x v K : (0 <= x < M)%Z -> (0 <= v <= 5 * M)%Z -> (0 <= K <= M)%Z ->
  (let* r := fx_mul c x v in fx_add c K r) = Ok (K + fm M x v)%Z /\ (0 <= K + fm M x v <= v + M)%Z.
Proof using HS.
  intros Hx Hv HK. pose proof ex_M as HM. destruct (ex_fm x v Hx ltac:(lia)) as [F0 F1].
  rewrite s_mul; auto; try (apply ex_sv; lia). 2:{ apply ex_sv. change (x * v / 2 ^ cf c)%Z with (fm M x v). lia. }
  cbn [bind]. change (x * v / 2 ^ cf c)%Z with (fm M x v). rewrite s_add; auto; try (apply ex_sv; lia). split; auto. lia.
Qed.
Lemma exp_poly_eq x : (0 <= x < M)%Z ->
  exp_poly c x = Ok (exp_poly_z M A B C D E F x) /\ (F <= exp_poly_z M A B C D E F x <= 6 * M)%Z.
Proof using HS RF RE RD RC RB RA HA HB HC HD HE HF.
  intros Hx. pose proof ex_M as HM.
  destruct (ex_step x A B Hx ltac:(lia) RB) as [E1 R1].
  set (h1 := (B + fm M x A)%Z) in *.
  destruct (ex_step x h1 C Hx ltac:(lia) RC) as [E2 R2]. set (h2 := (C + fm M x h1)%Z) in *.
  destruct (ex_step x h2 D Hx ltac:(lia) RD) as [E3 R3]. set (h3 := (D + fm M x h2)%Z) in *.
  destruct (ex_step x h3 E Hx ltac:(lia) RE) as [E4 R4]. set (h4 := (E + fm M x h3)%Z) in *.
  destruct (ex_step x h4 F Hx ltac:(lia) ltac:(lia)) as [E5 R5].
  split.
  - unfold exp_poly. change (k 0x01C798ECC0CBC856 = Ok A) in HA. unfold k in *. cbv zeta.
    rewrite HA, HB, HC, HD, HE, HF. cbn [bind].
    destruct (fx_mul c x A) as [r1| | |]; cbn [bind] in E1 |- *; try discriminate E1. rewrite E1. cbn [bind].
    destruct (fx_mul c x h1) as [r2| | |]; cbn [bind] in E2 |- *; try discriminate E2. rewrite E2. cbn [bind].
    destruct (fx_mul c x h2) as [r3| | |]; cbn [bind] in E3 |- *; try discriminate E3. rewrite E3. cbn [bind].
    destruct (fx_mul c x h3) as [r4| | |]; cbn [bind] in E4 |- *; try discriminate E4. rewrite E4. cbn [bind].
    destruct (fx_mul c x h4) as [r5| | |]; cbn [bind] in E5 |- *; try discriminate E5. rewrite E5. reflexivity.
  - unfold exp_poly_z. fold h1 h2 h3 h4. split; [|lia]. destruct (ex_fm x h4 Hx ltac:(lia)). lia.
Qed.

Lemma exp_expand_eq m : valid c m = true -> (0 <= m)%Z ->
  exists p, fx_pow_int c (ct c) EV (m / M) = Ok p /\ valid c p = true /\
  exp_expand c m = Ok (wrap (ct c) (fm M p (exp_poly_z M A B C D E F (m mod M)))).
Proof using HS REV RF RE RD RC RB RA HA HB HC HD HE HF HEV.
  intros V P. pose proof ex_M as HM. pose proof (std_wf c HS) as W. pose proof (std_nr c HS) as NR.
  assert (IP : integral_part c m = Ok (m / M)%Z).
  { apply integral_nonneg; auto. }
  assert (D0 : (0 <= m / M <= m)%Z) by (split; [apply Z.div_pos; lia|apply Z.div_le_upper_bound; nia]).
  assert (DM : (m = M * (m / M) + m mod M)%Z) by (apply Z.div_mod; lia).
  pose proof (Z.mod_pos_bound m M ltac:(lia)) as B0.
  assert (VR : in_range (ct c) (m / M) = true).
  { apply (std_valid c HS) in V. apply (std_valid c HS). lia. }
  destruct (pow_int_total c W NR (ct c) EV (m / M) (wf_ct c W) VR (ex_sv EV ltac:(lia)) ltac:(lia)) as (p & Ep & Vp).
  exists p. split; auto. split; auto.
  unfold exp_expand. rewrite IP. cbn [bind]. unfold fx_sub_assign_int.
  assert (VM : valid c ((m / M) * M) = true).
  { apply (std_valid c HS) in V. apply (std_valid c HS). fold M in V |- *. lia. }
  destruct (exp_poly_eq (m mod M) B0) as [EQ RQ].
  match goal with |- context [bind ?a _] => assert (ES : a = Ok (m - m / M * M)%Z) end.
  { rewrite wrap_id by (auto using std_t_ok). rewrite s_shl; auto; [|destruct HS as [-> | ->]; cbn; lia]. cbn [bind]. fold M.
    pose proof (s_sub c HS m (m / M * M)%Z V VM (ex_sv (m - m / M * M) ltac:(lia))) as SS. rewrite std_pt by auto. exact SS. }
  rewrite ES. cbn [bind]. replace (m - m / M * M)%Z with (m mod M)%Z by lia. rewrite HEV. cbn [bind]. rewrite Ep. cbn [bind]. rewrite EQ. cbn [bind].
  rewrite fx_mul_eq; auto. apply ex_sv. lia.
Qed.
End E.

(** ** Real-number error analysis *)
Lemma fm_r f a b : (65536 <= 2 ^ f)%Z -> rval f a * rval f b - ulp f < rval f (fm (2 ^ f) a b) <= rval f a * rval f b.
Proof. intros H. exact (fm_real (2 ^ f) ltac:(lia) a b). Qed.
Lemma rval_add f a b : rval f (a + b) = rval f a + rval f b.
Proof. unfold rval. rewrite plus_IZR. unfold Rdiv. ring. Qed.
Lemma rval_0 f a : (0 <= f)%Z -> (0 <= a)%Z -> 0 <= rval f a.
Proof. intros F H. apply Rmult_le_pos; [apply IZR_le; auto|left; apply Rinv_0_lt_compat, pow2_gt0; auto]. Qed.

Definition hq (f A B C D E F : Z) (X : R) : R :=
  rval f F + X * (rval f E + X * (rval f D + X * (rval f C + X * (rval f B + X * rval f A)))).
Lemma h_step f X x K v H n : (65536 <= 2 ^ f)%Z -> X = rval f x -> 0 <= X <= 1 -> 0 <= n -> H - n * ulp f <= rval f v <= H ->
  rval f K + X * H - (n + 1) * ulp f <= rval f (K + fm (2 ^ f) x v) <= rval f K + X * H.
Proof.
  intros HM -> HX Hn Hv. rewrite rval_add. pose proof (fm_r f x v HM) as F. set (w := fm (2 ^ f) x v) in *.
  assert (U : 0 < ulp f) by (apply Rinv_0_lt_compat, IZR_lt; lia). nra.
Qed.
Lemma exp_poly_real f A B C D E F x : (65536 <= 2 ^ f)%Z -> 0 <= rval f x <= 1 ->
  hq f A B C D E F (rval f x) - 5 * ulp f <= rval f (exp_poly_z (2 ^ f) A B C D E F x) <= hq f A B C D E F (rval f x).
Proof.
  intros HM HX. unfold exp_poly_z, hq.
  assert (H0 : rval f A - 0 * ulp f <= rval f A <= rval f A) by lra.
  pose proof (h_step f _ x B _ _ 0 HM eq_refl HX ltac:(lra) H0) as H1.
  pose proof (h_step f _ x C _ _ (0 + 1) HM eq_refl HX ltac:(lra) H1) as H2.
  pose proof (h_step f _ x D _ _ ((0 + 1) + 1) HM eq_refl HX ltac:(lra) H2) as H3.
  pose proof (h_step f _ x E _ _ (((0 + 1) + 1) + 1) HM eq_refl HX ltac:(lra) H3) as H4.
  pose proof (h_step f _ x F _ _ ((((0 + 1) + 1) + 1) + 1) HM eq_refl HX ltac:(lra) H4) as H5. lra.
Qed.

Lemma exp_pos_acc c A B C D E F EV N rho kap m : std c -> 
  (forall p n, (0 <= n <= N)%Z -> fx_pow_int c (ct c) EV n = Ok p -> (1 - rho) * exp (IZR n) <= rval (cf c) p <= exp (IZR n)) ->
  IZR (2 ^ cf c) / 2 <= exp (IZR (N + 1)) ->
  (forall X, 0 <= X <= 1 -> kap * exp X + 5 * ulp (cf c) <= hq (cf c) A B C D E F X <= exp X) ->
  0 <= rho <= 0.5 -> 0 <= kap <= 1 -> valid c m = true -> (0 <= m)%Z -> exp (rval (cf c) m) < IZR (2 ^ cf c) / 2 ->
  forall r, (exists p, fx_pow_int c (ct c) EV (m / 2 ^ cf c) = Ok p /\ valid c p = true /\
    r = wrap (ct c) (fm (2 ^ cf c) p (exp_poly_z (2 ^ cf c) A B C D E F (m mod 2 ^ cf c)))) ->
  valid c r = true /\ kap * (1 - rho) * exp (rval (cf c) m) - ulp (cf c) <= rval (cf c) r <= exp (rval (cf c) m).
Proof.
  intros HS HP HN HK Hrho Hkap V P HX r (p & Ep & Vp & ->).
  pose proof (std_M c HS) as HM. set (f := cf c) in *. set (n := (m / 2 ^ f)%Z) in *. set (x := (m mod 2 ^ f)%Z).
  assert (F0 : (0 <= f)%Z) by (unfold f; destruct HS as [-> | ->]; cbn; lia).
  assert (DM : (m = 2 ^ f * n + x)%Z) by (apply Z.div_mod; lia). pose proof (Z.mod_pos_bound m (2 ^ f) ltac:(lia)) as B0. fold x in B0.
  assert (N0 : (0 <= n)%Z) by (apply Z.div_pos; lia).
  pose proof (pow2_gt0 f F0) as RM.
  assert (EX : rval f m = IZR n + rval f x).
  { rewrite DM at 1. rewrite rval_add. f_equal. unfold rval. rewrite mult_IZR. field. lra. }
  assert (X01 : 0 <= rval f x <= 1).
  { split; [apply rval_0; lia|]. unfold rval. apply Rmult_le_reg_r with (IZR (2 ^ f)); auto. unfold Rdiv. rewrite Rmult_assoc, Rinv_l, Rmult_1_r, Rmult_1_l by lra.
    apply IZR_le. lia. }
  assert (NN : (n <= N)%Z).
  { destruct (Z.le_gt_cases n N) as [L|G]; auto. exfalso. assert (exp (IZR (N + 1)) <= exp (rval f m)); [|lra].
    assert (IZR (N + 1) <= IZR n) by (apply IZR_le; lia). assert (Q : IZR (N + 1) <= rval f m) by lra.
    destruct Q as [Q|Q]; [left; apply exp_increasing; auto|rewrite Q; lra]. }
  specialize (HP p n ltac:(lia) Ep). specialize (HK _ X01). pose proof (exp_poly_real f A B C D E F x (proj1 HM) X01) as PQ.
  set (q := exp_poly_z (2 ^ f) A B C D E F x) in *.
  assert (Q1 : kap * exp (rval f x) <= rval f q <= exp (rval f x)) by lra.
  pose proof (fm_r f p q (proj1 HM)) as FR. set (w := fm (2 ^ f) p q) in *.
  rewrite EX, exp_plus in *. pose proof (exp_pos (IZR n)) as E1. pose proof (exp_pos (rval f x)) as E2.
  set (en := exp (IZR n)) in *. set (ex := exp (rval f x)) in *.
  assert (U : 0 < ulp f) by (apply Rinv_0_lt_compat; auto).
  assert (P0 : 0 <= (1 - rho) * en) by nra.
  assert (K0 : 0 <= kap * ex) by nra.
  assert (UB : rval f p * rval f q <= en * ex).
  { apply Rmult_le_compat; lra. }
  assert (LB : kap * (1 - rho) * (en * ex) <= rval f p * rval f q).
  { replace (kap * (1 - rho) * (en * ex)) with (((1 - rho) * en) * (kap * ex)) by ring. apply Rmult_le_compat; lra. }
  assert (VW : valid c w = true).
  { apply (std_valid c HS). fold f.
    assert (W1 : -1 < IZR w < IZR (2 ^ f) * IZR (2 ^ f) / 2).
    { unfold rval in FR at 3 4. unfold ulp in FR.
      assert (T1 : rval f p * rval f q - / IZR (2 ^ f) < IZR w * / IZR (2 ^ f) <= rval f p * rval f q) by exact FR.
      assert (0 <= rval f p * rval f q) by nra.
      assert (T2 : - / IZR (2 ^ f) < IZR w * / IZR (2 ^ f) < IZR (2 ^ f) / 2) by lra.
      assert (IV : IZR w = IZR w * / IZR (2 ^ f) * IZR (2 ^ f)) by (field; lra). rewrite IV. clear IV.
      set (t := IZR w * / IZR (2 ^ f)) in *. assert (I1 : / IZR (2 ^ f) * IZR (2 ^ f) = 1) by (field; lra). clear FR T1. split; nra. }
    destruct W1 as [W1 W2]. assert (-1 < w)%Z by (apply lt_IZR; lra).
    assert (2 * w < 2 ^ f * 2 ^ f)%Z by (apply lt_IZR; rewrite !mult_IZR; lra). nia. }
  rewrite valid_wrap by (auto using std_wf). split; auto. lra.
Qed.
