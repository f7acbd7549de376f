(** exp for the instantiations of SinGen.v: order on each side of zero, reciprocals. *)
From Coq Require Import ZArith QArith Qreals Reals RMicromega Lia Lra Psatz Bool List.
From Interval Require Import Tactic.
From Verif Require Import Base Fixed Math Spec SpecReal SpecLemmas BaseLemmas FixedLemmas CLemmas InspectProofs MathProofs MathThms PowProofs PowAcc PowOrder RealLemmas StdProofs SinPoly SinProofs SinThms ExpProofs ExpDef PowReal NumThms ExactProofs InLemmas SinGen SinGen2 AtanGen ExpGen.
From Verif Require ExpMono.
Open Scope R_scope.

(** the series is a product of a power [pw] and a polynomial [q] *)
Lemma g_expand_fun c : sin_cfg c -> exists pw q : Z -> Z,
  (forall x y, (0 <= x <= y)%Z -> (y < 2 ^ cf c)%Z -> (0 <= q x <= q y)%Z) /\
  (forall x, (0 <= x < 2 ^ cf c)%Z -> hk (rval (cf c) x) - 11 * ulp (cf c) <= rval (cf c) (q x) <= hk (rval (cf c) x)) /\
  (forall n, (0 <= n)%Z -> exp (IZR n) <= rval (cf c) (maxv (ct c)) -> (0 <= pw n)%Z /\
    exp (IZR n) * (1 - 1.4 * IZR n * ulp (cf c)) <= rval (cf c) (pw n) <= exp (IZR n)) /\
  (forall m, valid c m = true -> (0 <= m)%Z -> exp (rval (cf c) m) <= rval (cf c) (maxv (ct c)) ->
    exp_expand c m = Ok (fm (2 ^ cf c) (pw (m / 2 ^ cf c)) (q (m mod 2 ^ cf c)))%Z).
Proof.
  intros HS. pose proof (g_f c HS) as F. pose proof (g_f c HS) as GF. pose proof (g_M c HS) as HM. pose proof (g_top c HS) as HT. 
  destruct (g_lit c 63 0x01C798ECC0CBC856 HS ltac:(lia) ltac:(split; [discriminate|reflexivity])) as (EA & RA & LA).
  destruct (g_lit c 63 0x04745859810836DA HS ltac:(lia) ltac:(split; [discriminate|reflexivity])) as (EB & RB & LB).
  destruct (g_lit c 63 0x15CFBB5C306F85F3 HS ltac:(lia) ltac:(split; [discriminate|reflexivity])) as (EC & RC & LC).
  destruct (g_lit c 63 0x3FE26186C531F98E HS ltac:(lia) ltac:(split; [discriminate|reflexivity])) as (ED & RD & LD).
  destruct (g_lit c 63 0x40014D4407008BB0 HS ltac:(lia) ltac:(split; [discriminate|reflexivity])) as (EE & RE & LE).
  destruct (g_lit c 63 0x7FFFF686446F1B43 HS ltac:(lia) ltac:(split; [discriminate|reflexivity])) as (EF & RF & LF).
  match type of EA with _ = Ok ?x => set (a := x) in * end. match type of EB with _ = Ok ?x => set (b := x) in * end.
  match type of EC with _ = Ok ?x => set (c0 := x) in * end. match type of ED with _ = Ok ?x => set (d0 := x) in * end.
  match type of EE with _ = Ok ?x => set (e0 := x) in * end. match type of EF with _ = Ok ?x => set (f0 := x) in * end.
  clearbody a b c0 d0 e0 f0.
  assert (RM : 8 <= IZR (2 ^ cf c)) by (apply IZR_le; lia).
  assert (UU : 0 < ulp (cf c) <= / 8) by (split; [apply Rinv_0_lt_compat; lra|apply Rinv_le_contravar; lra]).
  assert (F0 : (0 < f0)%Z).
  { apply lt_IZR. apply Rmult_lt_reg_r with (/ IZR (2 ^ cf c)); [apply Rinv_0_lt_compat; lra|]. rewrite Rmult_0_l.
    change (IZR f0 * / IZR (2 ^ cf c)) with (rval (cf c) f0). change (IZR (2 ^ 63)) with 9223372036854775808 in LF. lra. }
  destruct (g_const c (fx_e c) (exp 1) HS ltac:(cbn; tauto) ltac:(interval)) as (EV & HEV & BEV).
  change (fx_e c) with (e_v c) in HEV.
  assert (EVB : (0 < EV <= 4 * 2 ^ cf c)%Z).
  { assert (2.7 < exp 1 < 2.8) by (split; interval). split; [apply lt_IZR|apply le_IZR; rewrite mult_IZR]; nra. }
  pose proof (g_exp_poly_eq c HS a b c0 d0 e0 f0 EA EB EC ED EE EF ltac:(lia) ltac:(lia) ltac:(lia) ltac:(lia) ltac:(lia) ltac:(lia)) as PE.
  pose proof (g_exp_expand_eq c HS a b c0 d0 e0 f0 EV EA EB EC ED EE EF HEV ltac:(lia) ltac:(lia) ltac:(lia) ltac:(lia) ltac:(lia) ltac:(lia) EVB) as GE.
  set (f := cf c) in *. exists (fun n => match fx_pow_int c (ct c) EV n with Ok p => p | _ => 0%Z end), (exp_poly_z (2 ^ f) a b c0 d0 e0 f0).
  assert (X01' : forall x, (0 <= x < 2 ^ f)%Z -> 0 <= rval f x <= 1).
  { intros x B0. split; [apply rval_0; lia|]. unfold rval. apply Rmult_le_reg_r with (IZR (2 ^ f)); [lra|]. unfold Rdiv. rewrite Rmult_assoc, Rinv_l, Rmult_1_r, Rmult_1_l by lra.
    apply IZR_le. lia. }
  split; [|split; [|split]].
  - intros x y XY YM. destruct (PE x ltac:(lia)) as (_ & Q0).
    pose proof (ExpMono.poly_mono (2 ^ f) a b c0 d0 e0 f0 ltac:(lia) ltac:(lia) ltac:(lia) ltac:(lia) ltac:(lia) ltac:(lia) ltac:(lia) x y XY) as PM. lia.
  - intros x B0. pose proof (X01' x B0) as X01. pose proof (g_exp_poly_real f a b c0 d0 e0 f0 x ltac:(lia) X01) as PQ.
    set (q := exp_poly_z (2 ^ f) a b c0 d0 e0 f0 x) in *.
    assert (HN : hk (rval f x) - 6 * ulp f <= hq f a b c0 d0 e0 f0 (rval f x) <= hk (rval f x)).
    { unfold hq, hk, hr. set (X := rval f x) in *. set (u := ulp f) in *. assert (u0 : 0 <= u) by lra.
      assert (S0 : k63 0x01C798ECC0CBC856 - 1 * u <= rval f a <= k63 0x01C798ECC0CBC856) by (unfold k63; lra).
      pose proof (h_near (k63 0x04745859810836DA) (rval f b) u X _ _ 1 X01 u0 ltac:(lra) ltac:(unfold k63; split; lra) S0) as S1.
      pose proof (h_near (k63 0x15CFBB5C306F85F3) (rval f c0) u X _ _ (1 + 1) X01 u0 ltac:(lra) ltac:(unfold k63; split; lra) S1) as S2.
      pose proof (h_near (k63 0x3FE26186C531F98E) (rval f d0) u X _ _ (1 + 1 + 1) X01 u0 ltac:(lra) ltac:(unfold k63; split; lra) S2) as S3.
      pose proof (h_near (k63 0x40014D4407008BB0) (rval f e0) u X _ _ (1 + 1 + 1 + 1) X01 u0 ltac:(lra) ltac:(unfold k63; split; lra) S3) as S4.
      pose proof (h_near (k63 0x7FFFF686446F1B43) (rval f f0) u X _ _ (1 + 1 + 1 + 1 + 1) X01 u0 ltac:(lra) ltac:(unfold k63; split; lra) S4) as S5. lra. }
    lra.
  - intros n N0 NM. destruct (g_epow c EV n HS HEV BEV N0 NM) as (p' & Ep' & _ & P0 & BP). fold f in BP. rewrite Ep'. auto.
  - intros m V P MX.
    destruct (GE m V P) as (p & Ep & Vp & EX).
    fold f in Ep, EX. rewrite Ep. destruct (g_expand c m HS V P MX) as (d & E' & Vd & D0 & B & _). rewrite EX in E'. rewrite EX. f_equal.
    set (n := (m / 2 ^ f)%Z) in *. set (x := (m mod 2 ^ f)%Z) in *.
    assert (DM : (m = 2 ^ f * n + x)%Z) by (apply Z.div_mod; lia). pose proof (Z.mod_pos_bound m (2 ^ f) ltac:(lia)) as B0. fold x in B0.
    assert (N0 : (0 <= n)%Z) by (apply Z.div_pos; lia).
    assert (EM : rval f m = IZR n + rval f x).
    { rewrite DM at 1. rewrite rval_add. f_equal. unfold rval. rewrite mult_IZR. field. lra. }
    pose proof (X01' x B0) as X01.
    assert (NM : exp (IZR n) <= rval f (maxv (ct c))) by (apply Rle_trans with (exp (rval f m)); [apply exp_le; lra|exact MX]).
    destruct (g_epow c EV n HS HEV BEV N0 NM) as (p' & Ep' & _ & P0 & BP). fold f in BP. rewrite Ep in Ep'. injection Ep' as <-.
    pose proof (PE x B0) as (_ & Q0). pose proof (g_exp_poly_real f a b c0 d0 e0 f0 x ltac:(lia) X01) as PQ.
    set (q := exp_poly_z (2 ^ f) a b c0 d0 e0 f0 x) in *.
    assert (HN : hk (rval f x) - 6 * ulp f <= hq f a b c0 d0 e0 f0 (rval f x) <= hk (rval f x)).
    { unfold hq, hk, hr. set (X := rval f x) in *. set (u := ulp f) in *. assert (u0 : 0 <= u) by lra.
      assert (S0 : k63 0x01C798ECC0CBC856 - 1 * u <= rval f a <= k63 0x01C798ECC0CBC856) by (unfold k63; lra).
      pose proof (h_near (k63 0x04745859810836DA) (rval f b) u X _ _ 1 X01 u0 ltac:(lra) ltac:(unfold k63; split; lra) S0) as S1.
      pose proof (h_near (k63 0x15CFBB5C306F85F3) (rval f c0) u X _ _ (1 + 1) X01 u0 ltac:(lra) ltac:(unfold k63; split; lra) S1) as S2.
      pose proof (h_near (k63 0x3FE26186C531F98E) (rval f d0) u X _ _ (1 + 1 + 1) X01 u0 ltac:(lra) ltac:(unfold k63; split; lra) S2) as S3.
      pose proof (h_near (k63 0x40014D4407008BB0) (rval f e0) u X _ _ (1 + 1 + 1 + 1) X01 u0 ltac:(lra) ltac:(unfold k63; split; lra) S3) as S4.
      pose proof (h_near (k63 0x7FFFF686446F1B43) (rval f f0) u X _ _ (1 + 1 + 1 + 1 + 1) X01 u0 ltac:(lra) ltac:(unfold k63; split; lra) S4) as S5. lra. }
    pose proof (hk_real _ X01) as HK. pose proof (g_fm_r f p q ltac:(lia)) as FR.
    assert (W0 : (0 <= fm (2 ^ f) p q)%Z) by (unfold fm; apply Z.div_pos; [apply Z.mul_nonneg_nonneg; lia|lia]).
    set (w := fm (2 ^ f) p q) in *.
    assert (EE1 : exp (rval f m) = exp (IZR n) * exp (rval f x)) by (rewrite EM; apply exp_plus).
    assert (PP : 0 <= rval f p) by (apply rval_0; lia). assert (QQ : 0 <= rval f q) by (apply rval_0; lia).
    assert (UP : rval f p * rval f q <= exp (IZR n) * exp (rval f x)) by (apply Rmult_le_compat; lra).
    apply valid_wrap; [apply (g_wf c HS)|]. apply (g_valid c HS). split; [lia|]. fold f in MX. rewrite (g_max c HS) in MX.
    assert (H : rval f w <= rval f (top c - 1)) by (rewrite EE1 in MX; lra).
    assert (w <= top c - 1)%Z; [|lia]. apply le_IZR. apply Rmult_le_reg_r with (/ IZR (2 ^ f)); [apply Rinv_0_lt_compat; lra|]. exact H.
Qed.

Lemma hk_lo X : 0 <= X <= 1 -> 0.999 <= hk X <= 2.22.
Proof. intros H. unfold hk, hr, k63. change (IZR (2 ^ 63)) with 9223372036854775808. split; interval. Qed.
Lemma g_expand_mono c m m' a b : sin_cfg c -> valid c m = true -> valid c m' = true -> (0 <= m <= m')%Z ->
  exp (rval (cf c) m') <= rval (cf c) (maxv (ct c)) -> (12 + 1.4 * rval (cf c) m') * ulp (cf c) <= 0.016 ->
  exp_expand c m = Ok a -> exp_expand c m' = Ok b -> (a <= b)%Z.
Proof.
  intros HS V V' L MX SM EA EB. pose proof (g_f c HS) as GF. pose proof (g_M c HS) as HM. assert (RM : 8 <= IZR (2 ^ cf c)) by (apply IZR_le; lia).
  assert (UU : 0 < ulp (cf c) <= / 8) by (split; [apply Rinv_0_lt_compat; lra|apply Rinv_le_contravar; lra]).
  destruct (g_expand_fun c HS) as (pw & q & QM & QB & PB & EX).
  set (f := cf c) in *. set (u := ulp f) in *.
  assert (IP : 0 < / IZR (2 ^ f)) by (apply Rinv_0_lt_compat; lra).
  assert (LR : rval f m <= rval f m') by (unfold rval; apply Rmult_le_compat_r; [lra|apply IZR_le; lia]).
  assert (MX0 : exp (rval f m) <= rval f (maxv (ct c))) by (apply Rle_trans with (2 := MX); apply exp_le; auto).
  rewrite (EX m V ltac:(lia) MX0) in EA. rewrite (EX m' V' ltac:(lia) MX) in EB. injection EA as <-. injection EB as <-.
  set (n := (m / 2 ^ f)%Z) in *. set (n' := (m' / 2 ^ f)%Z) in *. set (x := (m mod 2 ^ f)%Z) in *. set (x' := (m' mod 2 ^ f)%Z) in *.
  assert (DM : (m = 2 ^ f * n + x)%Z) by (apply Z.div_mod; lia). pose proof (Z.mod_pos_bound m (2 ^ f) ltac:(lia)) as B0. fold x in B0.
  assert (DM' : (m' = 2 ^ f * n' + x')%Z) by (apply Z.div_mod; lia). pose proof (Z.mod_pos_bound m' (2 ^ f) ltac:(lia)) as B0'. fold x' in B0'.
  assert (N0 : (0 <= n)%Z) by (apply Z.div_pos; lia). assert (NN : (n <= n')%Z) by (apply Z.div_le_mono; lia).
  assert (EM : forall z y k, (z = 2 ^ f * k + y)%Z -> rval f z = IZR k + rval f y).
  { intros z y k ->. rewrite rval_add. f_equal. unfold rval. rewrite mult_IZR. field. lra. }
  pose proof (EM _ _ _ DM) as EM1. pose proof (EM _ _ _ DM') as EM2.
  assert (X01 : forall y, (0 <= y < 2 ^ f)%Z -> 0 <= rval f y <= 1).
  { intros y By. split; [apply rval_0; lia|]. unfold rval. apply Rmult_le_reg_r with (IZR (2 ^ f)); [lra|]. unfold Rdiv. rewrite Rmult_assoc, Rinv_l, Rmult_1_r, Rmult_1_l by lra.
    apply IZR_le. lia. }
  pose proof (X01 x B0) as Xx. pose proof (X01 x' B0') as Xx'.
  assert (NM : exp (IZR n') <= rval f (maxv (ct c))) by (apply Rle_trans with (exp (rval f m')); [apply exp_le; lra|exact MX]).
  assert (NM0 : exp (IZR n) <= rval f (maxv (ct c))) by (apply Rle_trans with (exp (rval f m)); [apply exp_le; lra|exact MX0]).
  destruct (PB n N0 NM0) as (P0 & P1 & P2). destruct (PB n' ltac:(lia) NM) as (P0' & P1' & P2').
  unfold fm. apply Z.div_le_mono; [lia|].
  destruct (Z.eq_dec n n') as [EN|EN].
  - assert (XX : (x <= x')%Z) by (clearbody n n' x x'; subst n'; clear - DM DM' L; lia). rewrite <- EN in *. pose proof (QM x x' ltac:(lia) ltac:(lia)). apply Z.mul_le_mono_nonneg_l; lia.
  - pose proof (QB x B0) as Q1. pose proof (QB x' B0') as Q2. pose proof (hk_lo _ Xx) as K1. pose proof (hk_lo _ Xx') as K2.
    pose proof (QM x x ltac:(lia) ltac:(lia)) as Q0. 
    assert (EQ1 : exp (IZR n) * exp 1 <= exp (IZR n')).
    { rewrite <- exp_plus. apply exp_le. rewrite <- plus_IZR. apply IZR_le. lia. }
    assert (E27 : 2.7 <= exp 1) by interval. pose proof (exp_pos (IZR n)) as EP.
    set (e := exp (IZR n)) in *. set (e' := exp (IZR n')) in *.
    assert (G1 : 2.7 * e <= e') by nra.
    assert (NU : 0 <= 1.4 * IZR n' * u <= 0.016 /\ 11 * u <= 0.016).
    { assert (0 <= IZR n' <= rval f m') by (split; [apply IZR_le; lia|lra]). clear - H SM UU. nra. }
    assert (A1 : rval f (pw n) * rval f (q x) <= e * 2.22).
    { apply Rmult_le_compat; [apply rval_0; lia|apply rval_0; lia|lra|lra]. }
    assert (A2 : 0.98 * e' <= rval f (pw n')) by (clear - P1' NU G1 EP; nra).
    assert (A3 : 0.98 <= rval f (q x')) by lra.
    assert (A4 : (0.98 * e') * 0.98 <= rval f (pw n') * rval f (q x')) by (apply Rmult_le_compat; lra).
    assert (A5 : rval f (pw n) * rval f (q x) <= rval f (pw n') * rval f (q x')) by lra.
    apply le_IZR. rewrite !mult_IZR. unfold rval in A5.
    apply Rmult_le_reg_r with (/ IZR (2 ^ f) * / IZR (2 ^ f)); [apply Rmult_lt_0_compat; auto|]. unfold Rdiv in A5. lra.
Qed.

Lemma g_recip c m : sin_cfg c -> valid c m = true -> (0 < m)%Z -> exp (rval (cf c) m) <= rval (cf c) (maxv (ct c)) ->
  (12 + 1.4 * rval (cf c) m) * ulp (cf c) <= 0.016 ->
  exists d, exp_expand c m = Ok d /\ (0 < d)%Z /\ fx_exp c (- m) = Ok (2 ^ cf c * 2 ^ cf c / d)%Z /\ valid c d = true.
Proof.
  intros HS V P MX SM. pose proof (g_f c HS) as GF. pose proof (g_M c HS) as HM. pose proof (g_top c HS) as HT. assert (RM : 8 <= IZR (2 ^ cf c)) by (apply IZR_le; lia).
  destruct (g_expand c m HS V ltac:(lia) MX) as (d & E & Vd & D0 & B & _). exists d.
  set (f := cf c) in *. set (X := exp (rval f m)) in *.
  assert (X1 : 1 <= X) by (unfold X; rewrite <- exp_0; apply exp_le, rval_0; lia).
  assert (B8 : 0.8 * X <= rval f d) by nra.
  assert (D4 : (2 ^ f < 2 * d)%Z).
  { apply lt_IZR. rewrite mult_IZR. assert (B9 : 0.8 <= rval f d) by lra. unfold rval in B9. apply (Rmult_le_compat_r (IZR (2 ^ f))) in B9; [|lra].
    unfold Rdiv in B9. rewrite Rmult_assoc, Rinv_l in B9 by lra. lra. }
  split; [exact E|]. split; [lia|]. split; [|exact Vd]. rewrite (g_exp_neg_eq c m d HS V) by (auto; lia). fold f. rewrite Z.quot_div_nonneg by nia. f_equal.
  apply valid_wrap; [apply (g_wf c HS)|]. apply (g_valid c HS). fold f in HT.
  assert (0 <= 2 ^ f * 2 ^ f / d)%Z by (apply Z.div_pos; nia). assert (2 ^ f * 2 ^ f / d < 2 * 2 ^ f)%Z by (apply Z.div_lt_upper_bound; nia). lia.
Qed.

Theorem exp_gen_order c m m' : sin_cfg c -> valid c m = true -> valid c m' = true -> (m <= m')%Z -> (0 < m \/ m' < 0)%Z ->
  exp (Rabs (rval (cf c) m)) <= rval (cf c) (maxv (ct c)) -> exp (Rabs (rval (cf c) m')) <= rval (cf c) (maxv (ct c)) ->
  (12 + 1.4 * Rabs (rval (cf c) m)) * ulp (cf c) <= 0.016 -> (12 + 1.4 * Rabs (rval (cf c) m')) * ulp (cf c) <= 0.016 ->
  exists a b, fx_exp c m = Ok a /\ fx_exp c m' = Ok b /\ (a <= b)%Z.
Proof.
  intros HS V V' L SG MX MX' SM SM'.
  pose proof (g_f c HS) as GF. pose proof (g_M c HS) as HM. assert (RM : 8 <= IZR (2 ^ cf c)) by (apply IZR_le; lia).
  assert (IP : 0 < / IZR (2 ^ cf c)) by (apply Rinv_0_lt_compat; lra).
  destruct SG as [P|N].
  - assert (AB : forall z, (0 < z)%Z -> Rabs (rval (cf c) z) = rval (cf c) z) by (intros z Z0; apply Rabs_pos_eq, rval_0; lia).
    rewrite AB in * by lia.
    destruct (g_expand c m HS V ltac:(lia) MX) as (a & E & _). destruct (g_expand c m' HS V' ltac:(lia) MX') as (b & E' & _).
    exists a, b. rewrite !(g_exp_pos_eq c) by (auto; lia). split; [exact E|]. split; [exact E'|].
    exact (g_expand_mono c m m' a b HS V V' ltac:(lia) MX' SM' E E').
  - assert (AB : forall z, (z < 0)%Z -> Rabs (rval (cf c) z) = rval (cf c) (- z)).
    { intros z Z0. rewrite rval_opp. apply Rabs_left. unfold rval, Rdiv. apply IZR_lt in Z0. nra. }
    assert (NV : forall z, valid c z = true -> (z < 0)%Z -> exp (rval (cf c) (- z)) <= rval (cf c) (maxv (ct c)) -> valid c (- z) = true).
    { intros z Vz Z0 Mz. destruct (Z.eq_dec z (- top c)) as [->|NT]; [|apply (g_valid c HS) in Vz; apply (g_valid c HS); lia]. exfalso.
      rewrite Z.opp_involutive, (g_max c HS) in Mz. pose proof (exp_ineq1 (rval (cf c) (top c))) as X.
      assert (T0 : 0 < rval (cf c) (top c)) by (unfold rval; apply Rmult_lt_0_compat; [apply IZR_lt; lia|lra]). specialize (X ltac:(lra)).
      assert (rval (cf c) (top c - 1) <= rval (cf c) (top c)) by (unfold rval; apply Rmult_le_compat_r; [lra|apply IZR_le; lia]). lra. }
    rewrite AB in * by lia. pose proof (NV m V ltac:(lia) MX) as W. pose proof (NV m' V' ltac:(lia) MX') as W'.
    destruct (g_recip c (- m) HS W ltac:(lia) MX SM) as (d & E & D0 & R & _). destruct (g_recip c (- m') HS W' ltac:(lia) MX' SM') as (d' & E' & D0' & R' & _).
    rewrite Z.opp_involutive in R, R'. exists (2 ^ cf c * 2 ^ cf c / d)%Z, (2 ^ cf c * 2 ^ cf c / d')%Z. split; [exact R|]. split; [exact R'|].
    apply Z.div_le_compat_l; [nia|]. split; [lia|]. exact (g_expand_mono c (- m') (- m) d' d HS W' W ltac:(lia) MX SM E' E).
Qed.
Theorem exp_gen_recip c m : sin_cfg c -> valid c m = true -> 0 < rval (cf c) m -> exp (rval (cf c) m) <= rval (cf c) (maxv (ct c)) ->
  (12 + 1.4 * rval (cf c) m) * ulp (cf c) <= 0.016 ->
  exists a b, fx_exp c m = Ok a /\ fx_exp c (- m) = Ok b /\ rval (cf c) b * rval (cf c) a <= 1 < (rval (cf c) b + ulp (cf c)) * rval (cf c) a.
Proof.
  intros HS V P0 MX SM. pose proof (g_f c HS) as GF. pose proof (g_M c HS) as HM. assert (RM : 8 <= IZR (2 ^ cf c)) by (apply IZR_le; lia).
  assert (IP : 0 < / IZR (2 ^ cf c)) by (apply Rinv_0_lt_compat; lra).
  assert (P : (0 < m)%Z) by (apply lt_IZR; apply Rmult_lt_reg_r with (1 := IP); unfold rval, Rdiv in P0; lra).
  destruct (g_recip c m HS V P MX SM) as (d & E & D0 & R & _). exists d, (2 ^ cf c * 2 ^ cf c / d)%Z.
  split; [rewrite (g_exp_pos_eq c m HS V P); exact E|]. split; [exact R|].
  set (K := (2 ^ cf c)%Z) in *. pose proof (Z.div_mod (K * K) d ltac:(lia)) as DM. pose proof (Z.mod_pos_bound (K * K) d D0) as MB.
  set (b := (K * K / d)%Z) in *. unfold rval, ulp. fold K.
  assert (B1 : (b * d <= K * K < (b + 1) * d)%Z) by lia. destruct B1 as [B1 B2]. apply IZR_le in B1. apply IZR_lt in B2. rewrite !mult_IZR in *. rewrite plus_IZR in B2.
  set (k := IZR K) in *. assert (II : 0 < / k * / k) by (apply Rmult_lt_0_compat; auto).
  assert (K1 : k * k * (/ k * / k) = 1) by (field; lra). split.
  - replace (IZR b / k * (IZR d / k)) with (IZR b * IZR d * (/ k * / k)) by (unfold Rdiv; ring). rewrite <- K1. apply Rmult_le_compat_r; lra.
  - replace ((IZR b / k + / k) * (IZR d / k)) with ((IZR b + 1) * IZR d * (/ k * / k)) by (unfold Rdiv; ring). rewrite <- K1 at 1. apply Rmult_lt_compat_r; lra.
Qed.
