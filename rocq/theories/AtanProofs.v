(** atan on [-1, 1]. *)
From Coq Require Import ZArith Reals Lia Lra Psatz Bool.
From Interval Require Import Tactic.
From Verif Require Import Base Fixed Math Spec SpecReal BaseLemmas FixedLemmas CLemmas InspectProofs MathProofs PowProofs RealLemmas StdProofs SinPoly SinProofs SinThms.
Open Scope R_scope.

Lemma sign_test c m : std c -> valid c m = true ->
  exists k, signbit_mask c = Ok k /\ negb (c_and (ct c) (ct c) k m =? 0)%Z = (m <? 0)%Z.
Proof.
  intros HS V. pose proof (std_wf c HS) as W. pose proof (signbit_eq c m W V) as E. unfold fx_signbit in E.
  replace (sgn (ct c)) with true in E by (destruct HS as [-> | ->]; reflexivity).
  destruct (signbit_mask c) as [k| | |]; try discriminate. exists k. split; auto. cbn [bind] in E.
  unfold c_and in *. rewrite Z.land_comm. congruence.
Qed.

(** oddness, for every argument but the least value *)
Lemma atan_pos_neg c m : std c -> valid c m = true -> (0 < m)%Z ->
  fx_atan c (- m) = (let* r := fx_atan c m in fx_neg c r).
Proof.
  intros HS V P. assert (V' : valid c (- m) = true) by (apply (std_valid c HS) in V; apply (std_valid c HS); lia).
  unfold fx_atan. rewrite !s_abs by (auto; try rewrite Z.abs_opp; rewrite Z.abs_eq by lia; auto). cbn [bind].
  rewrite Z.abs_opp. destruct (atan_poly c (Z.abs m)); auto. cbn [bind].
  destruct (sign_test c m HS V) as (k & E1 & E2). destruct (sign_test c (- m) HS V') as (k' & E1' & E2').
  rewrite E1 in E1'. injection E1' as <-. rewrite E1. cbn [bind]. rewrite E2, E2'.
  replace (m <? 0)%Z with false by (clear - P; lia). replace (- m <? 0)%Z with true by (clear - P; lia). reflexivity.
Qed.

Section ATAN.
Variable c : cfg.
Hypothesis HS : std c.
Variables A B C : Z.
Let M := (2 ^ cf c)%Z.
Hypothesis HA : atan_a c = Ok (- A)%Z.
Hypothesis HB : atan_b c = Ok B.
Hypothesis HC : atan_c c = Ok C.
Hypothesis RA : (0 <= A)%Z.
Hypothesis RB : (A < B)%Z.
Hypothesis RC : (B < C)%Z.
Hypothesis RM : (C < M)%Z.

Definition atan_poly_z (M A B C x : Z) : Z :=
  let x2 := fm M x x in
  (fm M (fm M (fm M (fm M (- A) x2 + B) x2 - C) x2) x + x)%Z.

Lemma fm_neg u v k : (- k <= u <= 0)%Z -> (0 <= v <= M)%Z -> (- k <= fm M u v <= 0)%Z.
Proof.
  intros Hu Hv. pose proof (std_M c HS) as HM. fold M in HM. unfold fm. split.
  - apply Z.div_le_lower_bound; nia.
  - apply Z.div_le_upper_bound; nia.
Qed.
Lemma atan_poly_eq x : (0 <= x <= M)%Z -> atan_poly c x = Ok (atan_poly_z M A B C x) /\ (0 <= atan_poly_z M A B C x <= M)%Z.
Proof using HS HA HB HC RA RB RC RM.
  intros Hx. pose proof (std_M c HS) as HM. fold M in HM.
  assert (SV : forall k, (- (8 * M) <= k <= 8 * M)%Z -> valid c k = true).
  { intros k Hk. apply std_valid; auto. fold M. clear - HM Hk. nia. }
  assert (MU : forall u w, (- (2 * M) <= u <= 2 * M)%Z -> (- (2 * M) <= w <= 2 * M)%Z -> (- (8 * M) <= fm M u w <= 8 * M)%Z -> fx_mul c u w = Ok (fm M u w)).
  { intros u w Hu Hw Hf. unfold fm in *. apply s_mul; auto; apply SV; try (fold M); lia. }
  unfold atan_poly, atan_poly_z. cbv zeta. rewrite HA, HB, HC. cbn [bind].
  assert (Z2 := fm_le M ltac:(lia) x x M ltac:(lia) Hx). rewrite MU by lia. cbn [bind]. set (x2 := fm M x x) in *.
  assert (Z3 := fm_neg (- A) x2 A ltac:(lia) Z2). rewrite MU by lia. cbn [bind]. set (r1 := fm M (- A) x2) in *.
  rewrite s_add by (auto; apply SV; lia). cbn [bind].
  assert (Z4 := fm_le M ltac:(lia) (r1 + B) x2 B ltac:(lia) Z2). rewrite MU by lia. cbn [bind]. set (r3 := fm M (r1 + B) x2) in *.
  rewrite s_sub by (auto; apply SV; lia). cbn [bind].
  assert (Z5 := fm_neg (r3 - C) x2 C ltac:(lia) Z2). rewrite MU by lia. cbn [bind]. set (r5 := fm M (r3 - C) x2) in *.
  assert (Z6 := fm_neg r5 x C ltac:(lia) Hx). rewrite MU by lia. cbn [bind]. 
  assert (Z7 : (- x <= fm M r5 x)%Z).
  { unfold fm. apply Z.div_le_lower_bound; [lia|]. clear - Z5 RM Hx HM. nia. }
  set (r6 := fm M r5 x) in *.
  rewrite s_add by (auto; apply SV; lia). split; [reflexivity|]. lia.
Qed.
Lemma atan_eq m : valid c m = true -> (Z.abs m <= M)%Z ->
  fx_atan c m = Ok (if (m <? 0)%Z then (- atan_poly_z M A B C (- m))%Z else atan_poly_z M A B C m).
Proof using HS HA HB HC RA RB RC RM.
  intros V Hm. pose proof (std_M c HS) as HM. fold M in HM.
  assert (SV : forall k, (- (8 * M) <= k <= 8 * M)%Z -> valid c k = true).
  { intros k Hk. apply std_valid; auto. fold M. clear - HM Hk. nia. }
  unfold fx_atan. rewrite s_abs by (auto; apply SV; lia). cbn [bind].
  destruct (atan_poly_eq (Z.abs m) ltac:(lia)) as [E R]. rewrite E. cbn [bind].
  destruct (sign_test c m HS V) as (k & E1 & E2). rewrite E1. cbn [bind]. rewrite E2.
  destruct (Z.ltb_spec m 0).
  - rewrite s_neg by (auto; apply SV; lia). rewrite Z.abs_neq by lia. reflexivity.
  - rewrite Z.abs_eq by lia. reflexivity.
Qed.

Let rM := IZR M.
Let e := / rM.
Let v (z : Z) := IZR z / rM.
Definition atan_real (a b cc X : R) : R := ((- a * (X * X) + b) * (X * X) - cc) * (X * X) * X + X.
Lemma atan_poly_err x : (0 <= x <= M)%Z ->
  Rabs (v (atan_poly_z M A B C x) - atan_real (v A) (v B) (v C) (v x)) <= 8 * e.
Proof using HS RA RB RC RM.
  intros Hx. pose proof (std_M c HS) as HM. fold M in HM.
  assert (HR : 65536 <= rM) by (apply IZR_le; lia).
  assert (He : 0 < e) by (apply Rinv_0_lt_compat; lra).
  assert (VA : forall p q, v (p + q) = v p + v q) by (intros; unfold v; rewrite plus_IZR; field; lra).
  assert (VS : forall p q, v (p - q) = v p - v q) by (intros; unfold v; rewrite minus_IZR; field; lra).
  assert (VO : forall p, v (- p) = - v p) by (intros; unfold v; rewrite opp_IZR; field; lra).
  assert (VM : v M = 1) by (unfold v; fold rM; field; lra).
  assert (V0 : v 0 = 0) by (unfold v, Rdiv; ring).
  assert (VL : forall p q, (p <= q)%Z -> v p <= v q) by (intros; apply Rmult_le_compat_r; [left; exact He|apply IZR_le; auto]).
  pose proof (VL 0 A ltac:(lia))%Z as L1. pose proof (VL A B ltac:(lia)) as L2. pose proof (VL B C ltac:(lia)) as L3. pose proof (VL C M ltac:(lia)) as L4.
  rewrite VM, V0 in *.
  assert (X0 : 0 <= v x <= 1) by (rewrite <- VM, <- V0; split; apply VL; lia).
  set (X := v x) in *. set (a := v A) in *. set (b := v B) in *. set (cc := v C) in *.
  assert (F : forall p q, v p * v q - e < v (fm M p q) <= v p * v q) by (apply (fm_real M); lia).
  unfold atan_poly_z. cbv zeta. set (x2 := fm M x x).
  pose proof (F x x) as F1. fold x2 in F1. fold X in F1.
  pose proof (F (- A)%Z x2) as F2. set (r1 := fm M (- A) x2) in *. rewrite VO in F2. fold a in F2.
  pose proof (F (r1 + B)%Z x2) as F3. set (r3 := fm M (r1 + B) x2) in *. rewrite VA in F3. fold b in F3.
  pose proof (F (r3 - C)%Z x2) as F4. set (r5 := fm M (r3 - C) x2) in *. rewrite VS in F4. fold cc in F4.
  pose proof (F r5 x) as F5. set (r6 := fm M r5 x) in *. fold X in F5. rewrite VA. fold X.
  assert (Z2 := fm_le M ltac:(lia) x x M ltac:(lia) Hx). fold x2 in Z2.
  assert (X2 : 0 <= v x2 <= 1) by (rewrite <- VM, <- V0; split; apply VL; lia).
  set (s := v x2) in *. set (S := X * X) in *. assert (HSs : 0 <= S <= 1) by (unfold S; nra).
  assert (D1 : Rabs (v r1 - - a * S) <= 2 * e) by (apply Rabs_le; nra).
  set (R1 := - a * S) in *. assert (HR1 : -1 <= R1 <= 0) by (unfold R1; nra).
  assert (P3 : 0 <= R1 + b <= 1) by (unfold R1; nra).
  apply Rabs_inv_le in D1.
  assert (D3 : Rabs (v r3 - (R1 + b) * S) <= 4 * e).
  { assert (Q1 : Rabs ((v r1 + b) * s - (R1 + b) * s) <= 2 * e).
    { replace ((v r1 + b) * s - (R1 + b) * s) with ((v r1 - R1) * s) by ring. apply Rabs_le. nra. }
    assert (Q2 : Rabs ((R1 + b) * s - (R1 + b) * S) <= e).
    { replace ((R1 + b) * s - (R1 + b) * S) with ((R1 + b) * (s - S)) by ring. apply Rabs_le. nra. }
    apply Rabs_inv_le in Q1. apply Rabs_inv_le in Q2. apply Rabs_le. lra. }
  set (R3 := (R1 + b) * S) in *. assert (HR3 : 0 <= R3 <= b) by (unfold R3; clearbody R1 b S; clear - HR1 P3 HSs; nra).
  apply Rabs_inv_le in D3.
  assert (D5 : Rabs (v r5 - (R3 - cc) * S) <= 6 * e).
  { assert (Q1 : Rabs ((v r3 - cc) * s - (R3 - cc) * s) <= 4 * e).
    { replace ((v r3 - cc) * s - (R3 - cc) * s) with ((v r3 - R3) * s) by ring. apply Rabs_le. nra. }
    assert (Q2 : Rabs ((R3 - cc) * s - (R3 - cc) * S) <= e).
    { replace ((R3 - cc) * s - (R3 - cc) * S) with ((R3 - cc) * (s - S)) by ring. apply Rabs_le. nra. }
    apply Rabs_inv_le in Q1. apply Rabs_inv_le in Q2. apply Rabs_le. lra. }
  set (R5 := (R3 - cc) * S) in *. apply Rabs_inv_le in D5.
  assert (D6 : Rabs (v r6 - R5 * X) <= 7 * e).
  { assert (Q1 : Rabs (v r5 * X - R5 * X) <= 6 * e).
    { replace (v r5 * X - R5 * X) with ((v r5 - R5) * X) by ring. apply Rabs_le. nra. }
    apply Rabs_inv_le in Q1. apply Rabs_le. lra. }
  assert (ER : atan_real a b cc X = R5 * X + X) by reflexivity. rewrite ER.
  replace (v r6 + X - (R5 * X + X)) with (v r6 - R5 * X) by ring. lra.
Qed.
End ATAN.

Definition atan32 (m : Z) : Z := if (m <? 0)%Z then (- atan_poly_z (2 ^ 16) 3047 10440 21471 (- m))%Z else atan_poly_z (2 ^ 16) 3047 10440 21471 m.
Definition atan64 (m : Z) : Z := if (m <? 0)%Z then (- atan_poly_z (2 ^ 32) 199700839 684249364 1407129056 (- m))%Z else atan_poly_z (2 ^ 32) 199700839 684249364 1407129056 m.
Lemma atan32_eq m : (Z.abs m <= 65536)%Z -> fx_atan F32 m = Ok (atan32 m).
Proof.
  intros R. apply (atan_eq F32 s32); try reflexivity; try lia; auto.
  apply (std_valid F32 s32). cbn [cf F32]. change (2 ^ 16)%Z with 65536%Z. lia.
Qed.
Lemma atan64_eq m : (Z.abs m <= 4294967296)%Z -> fx_atan F64 m = Ok (atan64 m).
Proof.
  intros R. apply (atan_eq F64 s64); try reflexivity; try lia; auto.
  apply (std_valid F64 s64). cbn [cf F64]. change (2 ^ 32)%Z with 4294967296%Z. lia.
Qed.
Lemma atan_odd_real x : atan (- x) = - atan x. Proof. apply atan_opp. Qed.
Lemma atan32_real X : 0 <= X <= 1 -> Rabs (atan_real (3047 / 65536) (10440 / 65536) (21471 / 65536) X - atan X) <= 2.7e-4.
Proof. intros H. unfold atan_real. interval with (i_bisect X, i_taylor X, i_prec 50). Qed.
Lemma atan64_real X : 0 <= X <= 1 ->
  Rabs (atan_real (199700839 / 4294967296) (684249364 / 4294967296) (1407129056 / 4294967296) X - atan X) <= 2.7e-4.
Proof. intros H. unfold atan_real. interval with (i_bisect X, i_taylor X, i_prec 50). Qed.

Lemma atan32_acc m : (Z.abs m <= 65536)%Z -> Rabs (rval 16 (atan32 m) - atan (rval 16 m)) <= 4e-4.
Proof.
  assert (P : forall k, (0 <= k <= 65536)%Z -> Rabs (rval 16 (atan_poly_z (2 ^ 16) 3047 10440 21471 k) - atan (rval 16 k)) <= 4e-4).
  { intros k Hk.
    assert (E : Rabs (rval 16 (atan_poly_z (2 ^ 16) 3047 10440 21471 k) - atan_real (rval 16 3047) (rval 16 10440) (rval 16 21471) (rval 16 k)) <= 8 * ulp 16)
      by exact (atan_poly_err F32 s32 3047 10440 21471 ltac:(lia) ltac:(lia) ltac:(lia) ltac:(reflexivity) k Hk).
    assert (K : 0 <= rval 16 k <= 1).
    { unfold rval. change (IZR (2 ^ 16)) with 65536. assert (0 <= IZR k <= 65536) by (split; apply IZR_le; lia). lra. }
    assert (Q := atan32_real (rval 16 k) K).
    change (Rabs (atan_real (rval 16 3047) (rval 16 10440) (rval 16 21471) (rval 16 k) - atan (rval 16 k)) <= 2.7e-4) in Q.
    apply Rabs_inv_le in E. apply Rabs_inv_le in Q. assert (U : ulp 16 = / 65536) by reflexivity. rewrite U in *. apply Rabs_le. lra. }
  intros Hm. unfold atan32. destruct (Z.ltb_spec m 0) as [L|L].
  - specialize (P (- m)%Z ltac:(lia)). rewrite rval_opp, atan_opp in P. rewrite rval_opp.
    rewrite <- Rabs_Ropp. match goal with |- Rabs ?t <= _ => replace t with (rval 16 (atan_poly_z (2 ^ 16) 3047 10440 21471 (- m)) - - atan (rval 16 m)) by ring end. exact P.
  - apply P. lia.
Qed.
Lemma atan64_acc m : (Z.abs m <= 4294967296)%Z -> Rabs (rval 32 (atan64 m) - atan (rval 32 m)) <= 2.71e-4.
Proof.
  assert (P : forall k, (0 <= k <= 4294967296)%Z -> Rabs (rval 32 (atan_poly_z (2 ^ 32) 199700839 684249364 1407129056 k) - atan (rval 32 k)) <= 2.71e-4).
  { intros k Hk.
    assert (E : Rabs (rval 32 (atan_poly_z (2 ^ 32) 199700839 684249364 1407129056 k) - atan_real (rval 32 199700839) (rval 32 684249364) (rval 32 1407129056) (rval 32 k)) <= 8 * ulp 32)
      by exact (atan_poly_err F64 s64 199700839 684249364 1407129056 ltac:(lia) ltac:(lia) ltac:(lia) ltac:(reflexivity) k Hk).
    assert (K : 0 <= rval 32 k <= 1).
    { unfold rval. change (IZR (2 ^ 32)) with 4294967296. assert (0 <= IZR k <= 4294967296) by (split; apply IZR_le; lia). lra. }
    assert (Q := atan64_real (rval 32 k) K).
    change (Rabs (atan_real (rval 32 199700839) (rval 32 684249364) (rval 32 1407129056) (rval 32 k) - atan (rval 32 k)) <= 2.7e-4) in Q.
    apply Rabs_inv_le in E. apply Rabs_inv_le in Q. assert (U : ulp 32 = / 4294967296) by reflexivity. rewrite U in *. apply Rabs_le. lra. }
  intros Hm. unfold atan64. destruct (Z.ltb_spec m 0) as [L|L].
  - specialize (P (- m)%Z ltac:(lia)). rewrite rval_opp, atan_opp in P. rewrite rval_opp.
    rewrite <- Rabs_Ropp. match goal with |- Rabs ?t <= _ => replace t with (rval 32 (atan_poly_z (2 ^ 32) 199700839 684249364 1407129056 (- m)) - - atan (rval 32 m)) by ring end. exact P.
  - apply P. lia.
Qed.
