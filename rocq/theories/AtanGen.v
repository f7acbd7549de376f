(** atan on [-1, 1] for the instantiations of SinGen.v. *)
From Coq Require Import ZArith Reals Lia Lra Psatz Bool List.
From Interval Require Import Tactic.
From Verif Require Import Base Fixed Math Spec SpecReal BaseLemmas FixedLemmas CLemmas InspectProofs MathProofs PowProofs RealLemmas StdProofs SinPoly SinProofs SinThms AtanProofs NumThms ExactProofs RefuteArith LogGen2 SinGen SinGen2.
Open Scope R_scope.

(** a literal with [f0] fraction bits *)
Lemma g_lit c f0 v : sin_cfg c -> (61 <= f0 <= 63)%Z -> (0 <= v < 2 ^ f0)%Z ->
  from_fixed_num_value c f0 int64 v = Ok (v / 2 ^ (f0 - cf c))%Z /\ (0 <= v / 2 ^ (f0 - cf c) < 2 ^ cf c)%Z /\
  IZR v / IZR (2 ^ f0) - ulp (cf c) < rval (cf c) (v / 2 ^ (f0 - cf c)) <= IZR v / IZR (2 ^ f0).
Proof.
  intros HS F0 V. pose proof (g_f c HS) as F. pose proof (g_top c HS) as HT. pose proof (g_M c HS) as HM.
  assert (V2 : (0 <= v < 2 ^ 63)%Z).
  { assert (2 ^ f0 <= 2 ^ 63)%Z by (apply Z.pow_le_mono_r; lia). lia. }
  assert (PP : (2 ^ f0 = 2 ^ (f0 - cf c) * 2 ^ cf c)%Z) by (rewrite <- Z.pow_add_r by lia; f_equal; lia).
  assert (P : (0 < 2 ^ (f0 - cf c))%Z) by (apply pow2_pos; lia).
  assert (Q : (0 <= v / 2 ^ (f0 - cf c) < 2 ^ cf c)%Z) by (split; [apply Z.div_pos; lia|apply Z.div_lt_upper_bound; lia]).
  split; [|split; [exact Q|]].
  - rewrite lit_value by (auto using (g_wf c HS); lia). rewrite (g_nr c HS). f_equal. apply wrap_id; [exact (g_t_ok c HS)|].
    apply (g_valid c HS). lia.
  - pose proof (div_real v (2 ^ (f0 - cf c)) P) as D. rewrite PP, mult_IZR. unfold rval, ulp.
    assert (R1 : 0 < IZR (2 ^ (f0 - cf c))) by (apply IZR_lt; auto). assert (R2 : 0 < IZR (2 ^ cf c)) by (apply IZR_lt; lia).
    set (q := IZR (v / 2 ^ (f0 - cf c))) in *. set (d := IZR (2 ^ (f0 - cf c))) in *. set (m := IZR (2 ^ cf c)) in *.
    replace (IZR v / (d * m)) with (IZR v / d * / m) by (field; lra). assert (0 < / m) by (apply Rinv_0_lt_compat; auto). unfold Rdiv at 3 4. nra.
Qed.
Lemma g_sign_test c m : sin_cfg c -> valid c m = true ->
  exists k, signbit_mask c = Ok k /\ negb (c_and (ct c) (ct c) k m =? 0)%Z = (m <? 0)%Z.
Proof.
  intros HS V. pose proof (g_wf c HS) as W. pose proof (signbit_eq c m W V) as E. unfold fx_signbit in E.
  replace (sgn (ct c)) with true in E by (symmetry; apply HS).
  destruct (signbit_mask c) as [k| | |]; try discriminate. exists k. split; auto. cbn [bind] in E.
  unfold c_and in *. rewrite Z.land_comm. congruence.
Qed.

Section GATAN.
Variable c : cfg.
Hypothesis HS : sin_cfg c.
Variables A B C : Z.
Let M := (2 ^ cf c)%Z.
Hypothesis HA : atan_a c = Ok (- A)%Z.
Hypothesis HB : atan_b c = Ok B.
Hypothesis HC : atan_c c = Ok C.
Hypothesis RA : (0 <= A)%Z.
Hypothesis RB : (A <= B)%Z.
Hypothesis RC : (B <= C)%Z.
Hypothesis RM : (C < M)%Z.

Lemma g_fm_neg u v k : (- k <= u <= 0)%Z -> (0 <= v <= M)%Z -> (- k <= fm M u v <= 0)%Z.
Proof.
  intros Hu Hv. pose proof (g_M c HS) as HM. fold M in HM. pose proof (g_top c HS) as HT. fold M in HT. unfold fm. split.
  - apply Z.div_le_lower_bound; nia.
  - apply Z.div_le_upper_bound; nia.
Qed.
Lemma g_atan_poly_eq x : (0 <= x <= M)%Z -> atan_poly c x = Ok (atan_poly_z M A B C x) /\ (0 <= atan_poly_z M A B C x <= M)%Z.
Proof using HS HA HB HC RA RB RC RM.
  intros Hx. pose proof (g_M c HS) as HM. fold M in HM. pose proof (g_top c HS) as HT. fold M in HT.
  assert (SV : forall k, (- (8 * M) <= k <= 8 * M)%Z -> valid c k = true).
  { intros k Hk. apply (g_valid c HS). clear - HM HT Hk. lia. }
  assert (MU : forall u w, (- (2 * M) <= u <= 2 * M)%Z -> (- (2 * M) <= w <= 2 * M)%Z -> (- (8 * M) <= fm M u w <= 8 * M)%Z -> fx_mul c u w = Ok (fm M u w)).
  { intros u w Hu Hw Hf. unfold fm in *. apply g_mul; auto; apply SV; try (fold M); lia. }
  unfold atan_poly, atan_poly_z. cbv zeta. rewrite HA, HB, HC. cbn [bind].
  assert (Z2 := fm_le M ltac:(lia) x x M ltac:(lia) Hx). rewrite MU by lia. cbn [bind]. set (x2 := fm M x x) in *.
  assert (Z3 := g_fm_neg (- A) x2 A ltac:(lia) Z2). rewrite MU by lia. cbn [bind]. set (r1 := fm M (- A) x2) in *.
  rewrite g_add by (auto; apply SV; lia). cbn [bind].
  assert (Z4 := fm_le M ltac:(lia) (r1 + B) x2 B ltac:(lia) Z2). rewrite MU by lia. cbn [bind]. set (r3 := fm M (r1 + B) x2) in *.
  rewrite g_sub by (auto; apply SV; lia). cbn [bind].
  assert (Z5 := g_fm_neg (r3 - C) x2 C ltac:(lia) Z2). rewrite MU by lia. cbn [bind]. set (r5 := fm M (r3 - C) x2) in *.
  assert (Z6 := g_fm_neg r5 x C ltac:(lia) Hx). rewrite MU by lia. cbn [bind]. 
  assert (Z7 : (- x <= fm M r5 x)%Z).
  { unfold fm. apply Z.div_le_lower_bound; [lia|]. clear - Z5 RM Hx HM. nia. }
  set (r6 := fm M r5 x) in *.
  rewrite g_add by (auto; apply SV; lia). split; [reflexivity|]. lia.
Qed.
Lemma g_atan_eq m : valid c m = true -> (Z.abs m <= M)%Z ->
  fx_atan c m = Ok (if (m <? 0)%Z then (- atan_poly_z M A B C (- m))%Z else atan_poly_z M A B C m).
Proof using HS HA HB HC RA RB RC RM.
  intros V Hm. pose proof (g_M c HS) as HM. fold M in HM. pose proof (g_top c HS) as HT. fold M in HT.
  assert (SV : forall k, (- (8 * M) <= k <= 8 * M)%Z -> valid c k = true).
  { intros k Hk. apply (g_valid c HS). clear - HM HT Hk. lia. }
  unfold fx_atan. rewrite (g_abs c HS) by (auto; apply SV; lia). cbn [bind].
  destruct (g_atan_poly_eq (Z.abs m) ltac:(lia)) as [E R]. rewrite E. cbn [bind].
  destruct (g_sign_test c m HS V) as (k & E1 & E2). rewrite E1. cbn [bind]. rewrite E2.
  destruct (Z.ltb_spec m 0).
  - rewrite g_neg by (auto; apply SV; lia). rewrite Z.abs_neq by lia. reflexivity.
  - rewrite Z.abs_eq by lia. reflexivity.
Qed.

Let rM := IZR M.
Let e := / rM.
Let v (z : Z) := IZR z / rM.
Lemma g_atan_poly_err x : (0 <= x <= M)%Z ->
  Rabs (v (atan_poly_z M A B C x) - atan_real (v A) (v B) (v C) (v x)) <= 8 * e.
Proof using HS RA RB RC RM.
  intros Hx. pose proof (g_M c HS) as HM. fold M in HM. pose proof (g_top c HS) as HT. fold M in HT.
  assert (HR : 8 <= rM) by (apply IZR_le; lia).
  assert (He : 0 < e) by (apply Rinv_0_lt_compat; lra).
  assert (VA : forall p q, v (p + q) = v p + v q) by (intros; unfold v; rewrite plus_IZR; field; lra).
  assert (VS : forall p q, v (p - q) = v p - v q) by (intros; unfold v; rewrite minus_IZR; field; lra).
  assert (VO : forall p, v (- p) = - v p) by (intros; unfold v; rewrite opp_IZR; field; lra).
  assert (VM : v M = 1) by (unfold v; fold rM; field; lra).
  assert (V0 : v 0 = 0) by (unfold v, Rdiv; ring).
  assert (VL : forall p q, (p <= q)%Z -> v p <= v q) by (intros; apply Rmult_le_compat_r; [left; exact He|apply IZR_le; auto]).
  pose proof (VL 0 A ltac:(lia))%Z as L1. pose proof (VL A B ltac:(lia)) as L2. pose proof (VL B C ltac:(lia)) as L3. pose proof (VL C M ltac:(lia)) as L4.
  rewrite VM, V0 in *.
  assert (X0 : 0 <= v x <= 1) by (rewrite <- VM, <- V0; split; apply VL; lia).
  set (X := v x) in *. set (a := v A) in *. set (b := v B) in *. set (cc := v C) in *.
  assert (F : forall p q, v p * v q - e < v (fm M p q) <= v p * v q) by (apply (fm_real M); lia).
  unfold atan_poly_z. cbv zeta. set (x2 := fm M x x).
  pose proof (F x x) as F1. fold x2 in F1. fold X in F1.
  pose proof (F (- A)%Z x2) as F2. set (r1 := fm M (- A) x2) in *. rewrite VO in F2. fold a in F2.
  pose proof (F (r1 + B)%Z x2) as F3. set (r3 := fm M (r1 + B) x2) in *. rewrite VA in F3. fold b in F3.
  pose proof (F (r3 - C)%Z x2) as F4. set (r5 := fm M (r3 - C) x2) in *. rewrite VS in F4. fold cc in F4.
  pose proof (F r5 x) as F5. set (r6 := fm M r5 x) in *. fold X in F5. rewrite VA. fold X.
  assert (Z2 := fm_le M ltac:(lia) x x M ltac:(lia) Hx). fold x2 in Z2.
  assert (X2 : 0 <= v x2 <= 1) by (rewrite <- VM, <- V0; split; apply VL; lia).
  set (s := v x2) in *. set (S := X * X) in *. assert (HSs : 0 <= S <= 1) by (unfold S; nra).
  assert (D1 : Rabs (v r1 - - a * S) <= 2 * e) by (apply Rabs_le; nra).
  set (R1 := - a * S) in *. assert (HR1 : -1 <= R1 <= 0) by (unfold R1; nra).
  assert (P3 : 0 <= R1 + b <= 1) by (unfold R1; nra).
  apply Rabs_inv_le in D1.
  assert (D3 : Rabs (v r3 - (R1 + b) * S) <= 4 * e).
  { assert (Q1 : Rabs ((v r1 + b) * s - (R1 + b) * s) <= 2 * e).
    { replace ((v r1 + b) * s - (R1 + b) * s) with ((v r1 - R1) * s) by ring. apply Rabs_le. nra. }
    assert (Q2 : Rabs ((R1 + b) * s - (R1 + b) * S) <= e).
    { replace ((R1 + b) * s - (R1 + b) * S) with ((R1 + b) * (s - S)) by ring. apply Rabs_le. nra. }
    apply Rabs_inv_le in Q1. apply Rabs_inv_le in Q2. apply Rabs_le. lra. }
  set (R3 := (R1 + b) * S) in *. assert (HR3 : 0 <= R3 <= b) by (unfold R3; clearbody R1 b S; clear - HR1 P3 HSs; nra).
  apply Rabs_inv_le in D3.
  assert (D5 : Rabs (v r5 - (R3 - cc) * S) <= 6 * e).
  { assert (Q1 : Rabs ((v r3 - cc) * s - (R3 - cc) * s) <= 4 * e).
    { replace ((v r3 - cc) * s - (R3 - cc) * s) with ((v r3 - R3) * s) by ring. apply Rabs_le. nra. }
    assert (Q2 : Rabs ((R3 - cc) * s - (R3 - cc) * S) <= e).
    { replace ((R3 - cc) * s - (R3 - cc) * S) with ((R3 - cc) * (s - S)) by ring. apply Rabs_le. nra. }
    apply Rabs_inv_le in Q1. apply Rabs_inv_le in Q2. apply Rabs_le. lra. }
  set (R5 := (R3 - cc) * S) in *. apply Rabs_inv_le in D5.
  assert (D6 : Rabs (v r6 - R5 * X) <= 7 * e).
  { assert (Q1 : Rabs (v r5 * X - R5 * X) <= 6 * e).
    { replace (v r5 * X - R5 * X) with ((v r5 - R5) * X) by ring. apply Rabs_le. nra. }
    apply Rabs_inv_le in Q1. apply Rabs_le. lra. }
  assert (ER : atan_real a b cc X = R5 * X + X) by reflexivity. rewrite ER.
  replace (v r6 + X - (R5 * X + X)) with (v r6 - R5 * X) by ring. lra.
Qed.
End GATAN.

(** the coefficients *)
Definition ka : Z := 0x17CE62CE264A340.
Definition kb : Z := 0x5191A2296020A80.
Definition kc : Z := 0xA7BE2BC19C39800.
Lemma atan_real_near X : 0 <= X <= 1 ->
  Rabs (atan_real (IZR ka / IZR (2 ^ 61)) (IZR kb / IZR (2 ^ 61)) (IZR kc / IZR (2 ^ 61)) X - atan X) <= 2.7e-4.
Proof.
  intros H. unfold atan_real, ka, kb, kc. change (IZR (2 ^ 61)) with 2305843009213693952.
  interval with (i_bisect X, i_taylor X, i_prec 80).
Qed.
Lemma atan_real_stable a b d a' b' d' e X : 0 <= X <= 1 -> a - e <= a' <= a -> b - e <= b' <= b -> d - e <= d' <= d ->
  Rabs (atan_real a' b' d' X - atan_real a b d X) <= 2 * e.
Proof.
  intros HX HA HB HD. unfold atan_real.
  replace (((- a' * (X * X) + b') * (X * X) - d') * (X * X) * X + X - (((- a * (X * X) + b) * (X * X) - d) * (X * X) * X + X))
    with (((a - a') * (X * X * (X * X)) - (b - b') * (X * X) + (d - d')) * (X * X * X)) by ring.
  assert (S : 0 <= X * X <= 1) by nra. assert (S2 : 0 <= X * X * (X * X) <= 1) by nra. assert (S3 : 0 <= X * X * X <= 1) by nra.
  set (s := X * X) in *. set (s2 := s * s) in *. set (s3 := s * X) in *.
  assert (P1 : 0 <= (a - a') * s2 <= e) by nra. assert (P2 : 0 <= (b - b') * s <= e) by nra.
  apply Rabs_le. nra.
Qed.
Theorem atan_gen c m : sin_cfg c -> (Z.abs m <= 2 ^ cf c)%Z ->
  exists r, fx_atan c m = Ok r /\ valid c r = true /\ (Z.abs r <= 2 ^ cf c)%Z /\ fx_atan c (- m) = Ok (- r)%Z /\ (0 <= m -> 0 <= r)%Z /\
    Rabs (rval (cf c) r - atan (rval (cf c) m)) <= 2.7e-4 + 10 * ulp (cf c).
Proof.
  intros HS Hm. pose proof (g_f c HS) as F. pose proof (g_top c HS) as HT. pose proof (g_M c HS) as HM.
  set (q v := (v / 2 ^ (61 - cf c))%Z).
  assert (P : (0 < 2 ^ (61 - cf c))%Z) by (apply pow2_pos; lia).
  destruct (g_lit c 61 ka HS ltac:(lia) ltac:(split; [discriminate|reflexivity])) as (EA & RA & LA).
  destruct (g_lit c 61 kb HS ltac:(lia) ltac:(split; [discriminate|reflexivity])) as (EB & RB & LB).
  destruct (g_lit c 61 kc HS ltac:(lia) ltac:(split; [discriminate|reflexivity])) as (EC & RC & LC).
  assert (OA : (ka / 2 ^ (61 - cf c) <= kb / 2 ^ (61 - cf c))%Z) by (apply Z.div_le_mono; [lia|discriminate]).
  assert (OB : (kb / 2 ^ (61 - cf c) <= kc / 2 ^ (61 - cf c))%Z) by (apply Z.div_le_mono; [lia|discriminate]).
  clear P q.
  assert (A1 : atan_a c = Ok (- (ka / 2 ^ (61 - cf c)))%Z).
  { unfold atan_a. change 0x17CE62CE264A340%Z with ka. rewrite EA. cbn [bind]. unfold int_mul_fx, fx_mul_assign_int, c_mul, arith. cbv zeta.
    rewrite (g_u c HS). set (a := (ka / 2 ^ (61 - cf c))%Z) in *.
    assert (Va : in_range (ct c) a = true) by (apply (g_valid c HS); lia).
    assert (V1 : in_range (ct c) (-1) = true) by (apply (g_valid c HS); lia).
    assert (Vm : in_range (ct c) (- a) = true) by (apply (g_valid c HS); lia).
    pose proof (g_t_ok c HS) as T. rewrite !(wrap_id (ct c) a), !(wrap_id (ct c) (-1)) by auto.
    replace (a * -1)%Z with (- a)%Z by lia. 
    replace (sgn (ct c)) with true by (symmetry; apply HS). rewrite Vm. cbn [bind]. f_equal. apply wrap_id; auto. }
  change (atan_b c = Ok (kb / 2 ^ (61 - cf c))%Z) in EB. change (atan_c c = Ok (kc / 2 ^ (61 - cf c))%Z) in EC.
  set (a := (ka / 2 ^ (61 - cf c))%Z) in *. set (b := (kb / 2 ^ (61 - cf c))%Z) in *. set (d := (kc / 2 ^ (61 - cf c))%Z) in *. clearbody a b d.
  assert (V : forall k, (Z.abs k <= 2 ^ cf c)%Z -> valid c k = true) by (intros k K; apply (g_valid c HS); lia).
  pose proof (g_atan_eq c HS a b d A1 EB EC ltac:(lia) OA OB ltac:(lia)) as EQ.
  pose proof (g_atan_poly_eq c HS a b d A1 EB EC ltac:(lia) OA OB ltac:(lia)) as PQ.
  set (g := atan_poly_z (2 ^ cf c) a b d) in *.
  assert (ACC : forall k, (0 <= k <= 2 ^ cf c)%Z -> Rabs (rval (cf c) (g k) - atan (rval (cf c) k)) <= 2.7e-4 + 10 * ulp (cf c)).
  { intros k Hk.
    assert (E : Rabs (rval (cf c) (g k) - atan_real (rval (cf c) a) (rval (cf c) b) (rval (cf c) d) (rval (cf c) k)) <= 8 * ulp (cf c))
      by exact (g_atan_poly_err c HS a b d ltac:(lia) OA OB ltac:(lia) k Hk).
    assert (PR : 0 < IZR (2 ^ cf c)) by (apply IZR_lt; lia).
    assert (K : 0 <= rval (cf c) k <= 1).
    { unfold rval. assert (0 <= IZR k <= IZR (2 ^ cf c)) by (split; apply IZR_le; lia). set (W := IZR (2 ^ cf c)) in *. split.
      - apply Rmult_le_pos; [lra|]. left. apply Rinv_0_lt_compat; auto.
      - apply Rmult_le_reg_r with W; auto. replace (IZR k / W * W) with (IZR k) by (field; lra). lra. }
    pose proof (atan_real_near _ K) as Q.
    pose proof (atan_real_stable (IZR ka / IZR (2 ^ 61)) (IZR kb / IZR (2 ^ 61)) (IZR kc / IZR (2 ^ 61)) (rval (cf c) a) (rval (cf c) b) (rval (cf c) d) (ulp (cf c)) _ K ltac:(split; lra) ltac:(split; lra) ltac:(split; lra)) as ST.
    clear - E Q ST.
    apply Rabs_inv_le in E. apply Rabs_inv_le in Q. apply Rabs_inv_le in ST. apply Rabs_le. lra. }
  assert (E0 : g 0%Z = 0%Z).
  { unfold g, atan_poly_z, fm. cbv zeta. rewrite !Z.mul_0_r, !Z.div_0_l by lia. reflexivity. }
  assert (EM : forall k, (Z.abs k <= 2 ^ cf c)%Z -> fx_atan c k = Ok (if (k <? 0)%Z then (- g (- k))%Z else g k)) by (intros k K; apply EQ; auto).
  rewrite (EM m Hm), (EM (- m)%Z) by lia.
  eexists. split; [reflexivity|].
  destruct (Z.ltb_spec m 0) as [L|L].
  - destruct (PQ (- m)%Z ltac:(lia)) as (_ & R1). split; [apply V; lia|]. split; [lia|]. split.
    { destruct (Z.ltb_spec (- m) 0); [lia|]. f_equal. lia. }
    split; [lia|]. specialize (ACC (- m)%Z ltac:(lia)). rewrite rval_opp, atan_opp in ACC. rewrite rval_opp. clear - ACC.
    rewrite <- Rabs_Ropp. match goal with |- Rabs ?t <= _ => replace t with (rval (cf c) (g (- m)%Z) - - atan (rval (cf c) m)) by ring end. exact ACC.
  - destruct (PQ m ltac:(lia)) as (_ & R1). split; [apply V; lia|]. split; [lia|]. split.
    { destruct (Z.ltb_spec (- m) 0); [rewrite Z.opp_involutive; reflexivity|]. assert (m = 0%Z) by lia. subst m. change (- 0)%Z with 0%Z. rewrite E0. reflexivity. }
    split; [lia|]. apply ACC. lia.
Qed.
