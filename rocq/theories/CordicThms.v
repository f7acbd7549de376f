(** Accuracy and symmetry of the CORDIC sine and cosine (C86, C87, C108-C110). *)
From Coq Require Import ZArith Bool List Reals Lra Lia.
From Interval Require Import Tactic.
From Verif Require Import Base BaseLemmas Fixed FixedLemmas Math SpecReal RealLemmas SinProofs Cordic CordicProofs CordicReal.
Import ListNotations.
Open Scope R_scope.

Definition K32 := 39796%Z.
Definition al32 := [51465; 30385; 16054; 8149; 4090; 2047; 1023; 511; 255; 127; 63; 31; 15; 7; 3; 1; 0; 0; 0; 0; 0; 0;
  0; 0; 0; 0; 0; 0; 0; 0; 0; 0; 0; 0; 0; 0; 0; 0; 0; 0; 0]%Z.
Definition tl32 := [7186979; 639321; 966438; 764331; 712122; 349935; 961208; 1037654; 1047211; 1048406; 1048555;
  1048574; 1048576; 1048576; 1048576; 1048576; 1048576; 524288; 262144; 131072; 65536; 32768; 16384; 8192; 4096; 2048;
  1024; 512; 256; 128; 64; 32; 16; 8; 4; 2; 1; 1; 1; 1; 1]%Z.
Definition K64 := 2608131496%Z.
Definition al64 := [3373259424; 1991351317; 1052175346; 534100634; 268086747; 134174062; 67103403; 33553749; 16777130;
  8388597; 4194302; 2097151; 1048575; 524287; 262143; 131071; 65535; 32767; 16384; 8192; 4095; 2047; 1023; 512; 256;
  127; 63; 32; 15; 7; 4; 1; 1; 0; 0; 0; 0; 0; 0; 0; 0]%Z.
Definition tl64 := [2233997; 552660; 364572; 705271; 616432; 959961; 489190; 375739; 699870; 349551; 699052; 873814;
  1026731; 1045846; 1048235; 1048534; 1048571; 1048576; 1; 1; 1048576; 1048576; 1048576; 1; 1; 1048576; 1048576; 1;
  1048576; 1048576; 1; 1048576; 1; 524288; 262144; 131072; 65536; 32768; 16384; 8192; 4096]%Z.

Lemma k32 : cordic_k F32 = Ok K32. Proof. vm_compute. reflexivity. Qed.
Lemma k64 : cordic_k F64 = Ok K64. Proof. vm_compute. reflexivity. Qed.
Lemma a32 : cordic_angels F32 = Ok al32. Proof. vm_compute. reflexivity. Qed.
Lemma a64 : cordic_angels F64 = Ok al64. Proof. vm_compute. reflexivity. Qed.

Ltac pows := repeat match goal with |- context [(2 ^ ?i)%Z] => let v := eval vm_compute in (2 ^ i)%Z in change (2 ^ i)%Z with v end.
Lemma tab32 : tab (2 ^ 16) 0 al32 tl32.
Proof. unfold al32, tl32. cbn [tab]. pows. unfold U. repeat split; interval with (i_prec 80). Qed.
Lemma tab64 : tab (2 ^ 32) 0 al64 tl64.
Proof. unfold al64, tl64. cbn [tab]. pows. unfold U. repeat split; interval with (i_prec 80). Qed.
Lemma gain32 : - 1.6 <= IZR K32 * gain 0 al32 - 65536 <= 0.
Proof. unfold al32, K32. cbn [gain]. pows. interval with (i_prec 80). Qed.
Lemma gain64 : - 0.5 <= IZR K64 * gain 0 al64 - 4294967296 <= 0.
Proof. unfold al64, K64. cbn [gain]. pows. interval with (i_prec 80). Qed.

Lemma cos_lip a b : Rabs (cos a - cos b) <= Rabs (a - b).
Proof. rewrite !cos_sin. eapply Rle_trans; [apply sin_lip|]. right. f_equal. ring. Qed.
Lemma scale_lip S a b d : 0 < S -> Rabs (S * a - S * b) <= d -> Rabs (a - b) <= d / S.
Proof.
  intros HS H. apply (Rmult_le_reg_l S); [auto|]. replace (S * (d / S)) with d by (field; lra).
  rewrite <- (Rabs_right S) at 1 by lra. rewrite <- Rabs_mult. replace (S * (a - b)) with (S * a - S * b) by ring. auto.
Qed.

(** the loop, for a folded angle *)
Lemma core c Kc al tl (S : Z) r0 g B : big (ct c) -> big (ci c) -> (0 < S)%Z -> (0 <= r0)%Z ->
  tab S 0 al tl -> - g <= IZR Kc * gain 0 al - IZR S <= 0 ->
  Forall (fun a => (0 <= a)%Z) al -> (Z.of_nat (length al) <= bits (ci c))%Z -> (0 <= Kc)%Z -> (Kc * 2 ^ Z.of_nat (length al) <= maxv (ci c))%Z ->
  (r0 <= maxv (ct c))%Z -> (sumz al <= maxv (ct c))%Z ->
  IZR (ef 0 al 0) / U + g + IZR (sumz tl) / U + IZR (rf al r0) <= B ->
  forall Q, (0 <= Q <= r0)%Z -> exists x y, cordic_loop c Q 0 al Kc 0 0 = Ok (x, y) /\
    Rabs (IZR y - IZR S * sin (IZR Q / IZR S)) <= B /\ Rabs (IZR x - IZR S * cos (IZR Q / IZR S)) <= B.
Proof.
  intros BT BI HS R0 TB G FA LB KP KB RM SM HB Q HQ.
  rewrite (loop_eq c BT BI al Q 0 Kc 0 0 Kc 0) by (auto; lia).
  destruct (run_acc S Q al tl 0 Kc 0 0 0 (IZR Kc) 0 r0 0) as (x & y & q & th & E & EX & EY & EQ & ER); auto; try lia.
  { rewrite cos_0, Rmult_1_r, Rminus_eq_0, Rabs_R0. lra. }
  { rewrite sin_0, Rmult_0_r, Rminus_eq_0, Rabs_R0. lra. }
  { rewrite Rmult_0_r, Rminus_eq_0, Rabs_R0. lra. }
  exists x, y. rewrite E. split; [reflexivity|]. apply IZR_lt in HS as HSR.
  rewrite Z.add_0_l in EQ. apply IZR_le in ER. rewrite abs_IZR, minus_IZR in ER.
  assert (AN : Rabs (th - IZR Q / IZR S) <= (IZR (sumz tl) / U + IZR (rf al r0)) / IZR S).
  { apply scale_lip; auto. replace (IZR S * (IZR Q / IZR S)) with (IZR Q) by (field; lra).
    apply Rabs_le_between in EQ, ER. apply Rabs_le_between. lra. }
  set (P := IZR Kc * gain 0 al) in *.
  assert (FIN : forall v w f, Rabs (IZR v - P * f) <= IZR (ef 0 al 0) / U -> Rabs f <= 1 -> Rabs (f - w) <= Rabs (th - IZR Q / IZR S) ->
                Rabs (IZR v - IZR S * w) <= B).
  { intros v w f H1 H2 H3. replace (IZR v - IZR S * w) with ((IZR v - P * f) + ((P - IZR S) * f + IZR S * (f - w))) by ring.
    assert (A1 : Rabs ((P - IZR S) * f) <= g).
    { rewrite Rabs_mult. replace g with (g * 1) by ring. apply Rmult_le_compat; try apply Rabs_pos; auto. apply Rabs_le. lra. }
    assert (A2 : Rabs (IZR S * (f - w)) <= IZR (sumz tl) / U + IZR (rf al r0)).
    { rewrite Rabs_mult, (Rabs_right (IZR S)) by lra. apply Rle_trans with (IZR S * ((IZR (sumz tl) / U + IZR (rf al r0)) / IZR S)).
      - apply Rmult_le_compat_l; lra.
      - right. unfold U. field. lra. }
    apply Rabs_le_between in H1, A1, A2. apply Rabs_le_between. lra. }
  split.
  - apply (FIN y _ (sin th)); auto; [apply Rabs_le; pose proof (SIN_bound th); lra|apply sin_lip].
  - apply (FIN x _ (cos th)); auto; [apply Rabs_le; pose proof (COS_bound th); lra|apply cos_lip].
Qed.

(** folding *)
Lemma sinp x n : (0 <= n)%Z -> sin (x - 2 * IZR n * PI) = sin x.
Proof. intros N. rewrite <- (Z2Nat.id n) by auto. rewrite <- INR_IZR_INZ. rewrite <- (sin_period (x - _) (Z.to_nat n)). f_equal. ring. Qed.
Lemma cosp x n : (0 <= n)%Z -> cos (x - 2 * IZR n * PI) = cos x.
Proof. intros N. rewrite <- (Z2Nat.id n) by auto. rewrite <- INR_IZR_INZ. rewrite <- (cos_period (x - _) (Z.to_nat n)). f_equal. ring. Qed.
Lemma fold_real S p m dl : (0 < S)%Z -> (0 < p)%Z -> (0 <= m)%Z -> Rabs (PI * IZR S - IZR p) <= dl ->
  let '(Q, s, k) := cfold p m in
  (s = 1 \/ s = -1)%Z /\ (k = 1 \/ k = -1)%Z /\
  IZR S * Rabs (IZR s * sin (IZR Q / IZR S) - sin (IZR m / IZR S)) <= dl * (2 + IZR m / IZR p) /\
  IZR S * Rabs (IZR k * cos (IZR Q / IZR S) - cos (IZR m / IZR S)) <= dl * (2 + IZR m / IZR p).
Proof.
  intros HS HP HM HD. apply IZR_lt in HS as SR. apply IZR_lt in HP as PR. unfold cfold. cbv zeta.
  pose proof (Z.div_mod m (2 * p) ltac:(lia)) as DM. set (n := (m / (2 * p))%Z) in *. set (r := (m mod (2 * p))%Z) in *.
  assert (N : (0 <= n)%Z) by (apply Z.div_pos; lia). pose proof (Z.mod_pos_bound m (2 * p) ltac:(lia)) as RB. fold r in RB.
  assert (NM : IZR n <= IZR m / IZR p / 2).
  { assert (IZR (2 * p * n) <= IZR m) by (apply IZR_le; lia). rewrite !mult_IZR in H.
    apply (Rmult_le_reg_r (2 * IZR p)); [lra|]. replace (IZR m / IZR p / 2 * (2 * IZR p)) with (IZR m) by (field; lra). lra. }
  assert (DL : 0 <= dl) by (eapply Rle_trans; [apply Rabs_pos|exact HD]).
  assert (N0 : 0 <= IZR n) by (apply IZR_le; auto).
  (* the three comparisons of angles *)
  assert (C1 : Rabs (IZR r / IZR S - (IZR m / IZR S - 2 * IZR n * PI)) <= dl * (IZR m / IZR p) / IZR S).
  { apply scale_lip; auto. replace (IZR S * (IZR r / IZR S) - IZR S * (IZR m / IZR S - 2 * IZR n * PI)) with ((2 * IZR n) * (PI * IZR S - IZR p)).
    - rewrite Rabs_mult, (Rabs_right (2 * IZR n)) by lra. rewrite (Rmult_comm dl).
      apply Rmult_le_compat; try apply Rabs_pos; lra.
    - apply (f_equal IZR) in DM. rewrite plus_IZR, !mult_IZR in DM. replace (IZR S * (IZR r / IZR S) - IZR S * (IZR m / IZR S - 2 * IZR n * PI)) with (IZR r - IZR m + 2 * IZR n * PI * IZR S) by (field; lra). rewrite DM. ring. }
  assert (C2 : Rabs (IZR (r - p) / IZR S - (IZR r / IZR S - PI)) <= dl / IZR S).
  { apply scale_lip; auto. rewrite minus_IZR. replace (IZR S * ((IZR r - IZR p) / IZR S) - IZR S * (IZR r / IZR S - PI)) with (PI * IZR S - IZR p) by (field; lra). auto. }
  assert (C3 : forall q1, Rabs (IZR (p - q1) / IZR S - (PI - IZR q1 / IZR S)) <= dl / IZR S).
  { intros q1. apply scale_lip; auto. rewrite minus_IZR. replace (IZR S * ((IZR p - IZR q1) / IZR S) - IZR S * (PI - IZR q1 / IZR S)) with (- (PI * IZR S - IZR p)) by (field; lra).
    rewrite Rabs_Ropp. auto. }
  set (q1 := if (p <? r)%Z then (r - p)%Z else r). set (s := if (p <? r)%Z then (-1)%Z else 1%Z).
  (* first fold *)
  assert (F1 : (s = 1 \/ s = -1)%Z /\ Rabs (IZR s * sin (IZR q1 / IZR S) - sin (IZR m / IZR S)) <= dl / IZR S + dl * (IZR m / IZR p) / IZR S /\
               Rabs (IZR s * cos (IZR q1 / IZR S) - cos (IZR m / IZR S)) <= dl / IZR S + dl * (IZR m / IZR p) / IZR S).
  { assert (D0 : 0 <= dl / IZR S) by (apply Rmult_le_pos; [lra|apply Rlt_le, Rinv_0_lt_compat; lra]).
    pose proof (sin_lip (IZR r / IZR S) (IZR m / IZR S - 2 * IZR n * PI)) as L1. pose proof (cos_lip (IZR r / IZR S) (IZR m / IZR S - 2 * IZR n * PI)) as L2.
    rewrite sinp in L1 by auto. rewrite cosp in L2 by auto. unfold q1, s. destruct (p <? r)%Z.
    - pose proof (sin_lip (IZR (r - p) / IZR S) (IZR r / IZR S - PI)) as M1. pose proof (cos_lip (IZR (r - p) / IZR S) (IZR r / IZR S - PI)) as M2.
      rewrite <- (neg_sin (IZR r / IZR S - PI)) in M1 || idtac.
      assert (X1 : sin (IZR r / IZR S - PI) = - sin (IZR r / IZR S)) by (rewrite sin_minus, cos_PI, sin_PI; ring).
      assert (X2 : cos (IZR r / IZR S - PI) = - cos (IZR r / IZR S)) by (rewrite cos_minus, cos_PI, sin_PI; ring).
      rewrite X1 in M1. rewrite X2 in M2. assert (M1' := Rle_trans _ _ _ M1 C2). assert (M2' := Rle_trans _ _ _ M2 C2).
      assert (L1' := Rle_trans _ _ _ L1 C1). assert (L2' := Rle_trans _ _ _ L2 C1). apply Rabs_le_between in M1', M2', L1', L2'.
      split; [right; reflexivity|]. split; apply Rabs_le_between; lra.
    - assert (L1' := Rle_trans _ _ _ L1 C1). assert (L2' := Rle_trans _ _ _ L2 C1). apply Rabs_le_between in L1', L2'.
      split; [left; reflexivity|]. split; apply Rabs_le_between; lra. }
  destruct F1 as (Ss & F1 & F2). set (k := if (p / 2 <? q1)%Z then (-1)%Z else 1%Z). set (q2 := if (p / 2 <? q1)%Z then (p - q1)%Z else q1).
  assert (G1 : (k = 1 \/ k = -1)%Z /\ Rabs (sin (IZR q2 / IZR S) - sin (IZR q1 / IZR S)) <= dl / IZR S /\
               Rabs (IZR k * cos (IZR q2 / IZR S) - cos (IZR q1 / IZR S)) <= dl / IZR S).
  { assert (D0 : 0 <= dl / IZR S) by (apply Rmult_le_pos; [lra|apply Rlt_le, Rinv_0_lt_compat; lra]).
    unfold q2, k. destruct (p / 2 <? q1)%Z.
    - pose proof (sin_lip (IZR (p - q1) / IZR S) (PI - IZR q1 / IZR S)) as M1. pose proof (cos_lip (IZR (p - q1) / IZR S) (PI - IZR q1 / IZR S)) as M2.
      rewrite sin_PI_x in M1. assert (X : cos (PI - IZR q1 / IZR S) = - cos (IZR q1 / IZR S)) by (rewrite cos_minus, cos_PI, sin_PI; ring).
      rewrite X in M2. assert (M1' := Rle_trans _ _ _ M1 (C3 q1)). assert (M2' := Rle_trans _ _ _ M2 (C3 q1)). apply Rabs_le_between in M1', M2'.
      split; [right; reflexivity|]. split; apply Rabs_le_between; lra.
    - rewrite Rmult_1_l, !Rminus_eq_0, Rabs_R0. auto. }
  destruct G1 as (Kk & G1 & G2).
  assert (TOT : forall e, e <= dl / IZR S + (dl / IZR S + dl * (IZR m / IZR p) / IZR S) -> IZR S * e <= dl * (2 + IZR m / IZR p)).
  { intros e He. apply Rle_trans with (IZR S * (dl / IZR S + (dl / IZR S + dl * (IZR m / IZR p) / IZR S))); [apply Rmult_le_compat_l; lra|].
    right. field. lra. }
  split; [auto|]. split.
  { destruct Ss as [-> | ->], Kk as [-> | ->]; auto. }
  split; apply TOT.
  - replace (IZR s * sin (IZR q2 / IZR S) - sin (IZR m / IZR S)) with
      (IZR s * (sin (IZR q2 / IZR S) - sin (IZR q1 / IZR S)) + (IZR s * sin (IZR q1 / IZR S) - sin (IZR m / IZR S))) by ring.
    eapply Rle_trans; [apply Rabs_triang|]. apply Rplus_le_compat; auto. rewrite Rabs_mult.
    replace (Rabs (IZR s)) with 1; [lra|]. destruct Ss as [-> | ->]; rewrite <- abs_IZR; reflexivity.
  - rewrite mult_IZR. replace (IZR s * IZR k * cos (IZR q2 / IZR S) - cos (IZR m / IZR S)) with
      (IZR s * (IZR k * cos (IZR q2 / IZR S) - cos (IZR q1 / IZR S)) + (IZR s * cos (IZR q1 / IZR S) - cos (IZR m / IZR S))) by ring.
    eapply Rle_trans; [apply Rabs_triang|]. apply Rplus_le_compat; auto. rewrite Rabs_mult.
    replace (Rabs (IZR s)) with 1; [lra|]. destruct Ss as [-> | ->]; rewrite <- abs_IZR; reflexivity.
Qed.

(** putting it together for a configuration *)
Lemma cmul_sign c v s : big (ct c) -> (Z.abs v <= maxv (ct c))%Z -> (s = 1 \/ s = -1)%Z ->
  c_mul (ct c) int8 (wrap (ct c) v) s = Ok (s * v)%Z /\ wrap (ct c) (s * v) = (s * v)%Z.
Proof.
  intros B V HS. pose proof B as (K & B32 & SG). assert (MT : minv (ct c) = (- maxv (ct c) - 1)%Z) by (unfold minv, maxv; rewrite SG; lia).
  pose proof (Z.pow_le_mono_r 2 (32 - 1) (bits (ct c) - 1) ltac:(lia) ltac:(lia)) as PW. change (2 ^ (32 - 1))%Z with 2147483648%Z in PW.
  assert (MX : maxv (ct c) = (2 ^ (bits (ct c) - 1) - 1)%Z) by (unfold maxv; rewrite SG; reflexivity).
  assert (U8 : uac (ct c) int8 = ct c).
  { unfold uac. rewrite big_promote by auto. change (promote int8) with int32. rewrite SG. cbn [sgn bits int32 Bool.eqb].
    destruct (Z.ltb_spec (bits (ct c)) 32); [lia|reflexivity]. }
  assert (W : wrap (ct c) v = v) by (apply big_wrap; auto; lia). rewrite W.
  unfold c_mul. cbv zeta. rewrite U8, W. unfold arith. rewrite SG.
  rewrite (big_wrap (ct c) s) by (auto; destruct HS; lia).
  replace (in_range (ct c) (v * s)) with true by (symmetry; apply in_range_iff; destruct HS as [-> | ->]; lia).
  split; [f_equal; ring|]. apply big_wrap; auto. destruct HS as [-> | ->]; lia.
Qed.

Definition sgnz (m s : Z) : Z := if (m <? 0)%Z then (- s)%Z else s.
Lemma cordic_gen c p Kc al (S : Z) B dl :
  big (ct c) -> big (ci c) -> (bits (ct c) <= 64)%Z -> (0 <= cf c < bits (ct c))%Z -> (0 < p)%Z -> (2 * p <= maxv (ct c))%Z -> pi_v c = Ok p ->
  cordic_k c = Ok Kc -> cordic_angels c = Ok al -> length al = 41%nat -> wrap (ci c) Kc = Kc -> fx_of_int c 0 = Ok 0%Z ->
  (0 < S)%Z -> Rabs (PI * IZR S - IZR p) <= dl -> IZR S + B <= IZR (maxv (ct c)) ->
  (forall Q, (0 <= Q <= p - p / 2)%Z -> exists x y, cordic_loop c Q 0 al Kc 0 0 = Ok (x, y) /\
    Rabs (IZR y - IZR S * sin (IZR Q / IZR S)) <= B /\ Rabs (IZR x - IZR S * cos (IZR Q / IZR S)) <= B) ->
  forall m, in_range (ct c) m = true -> let a := (m mod 2 ^ (bits (ct c) - 1))%Z in
  exists y x, cordic c 41 true m = Ok (sgnz m y) /\ cordic c 41 false m = Ok x /\
    Rabs (IZR y - IZR S * sin (IZR a / IZR S)) <= B + dl * (2 + IZR a / IZR p) /\
    Rabs (IZR x - IZR S * cos (IZR a / IZR S)) <= B + dl * (2 + IZR a / IZR p) /\
    (forall m', in_range (ct c) m' = true -> (m' mod 2 ^ (bits (ct c) - 1) = a)%Z -> cordic c 41 true m' = Ok (sgnz m' y) /\ cordic c 41 false m' = Ok x).
Proof.
  intros BT BI B64 CF HP PM HPI HK HA LA WK Z0 HS HD MB CORE m M a. apply IZR_lt in HS as SR.
  pose proof (cfold_range p a HP) as CR. pose proof (fold_real S p a dl HS HP) as FR.
  assert (A0 : (0 <= a)%Z) by (apply Z.mod_pos_bound, Z.pow_pos_nonneg; destruct BT as (_ & ? & _); lia).
  specialize (FR A0 HD). destruct (cfold p a) as [[Q s] k] eqn:CFD. destruct FR as (Hs & Hk & FS & FC). cbn [fst] in CR.
  destruct (CORE Q CR) as (x & y & L & EY & EX).
  assert (BND : forall v f, Rabs (IZR v - IZR S * f) <= B -> -1 <= f <= 1 -> (Z.abs v <= maxv (ct c))%Z).
  { intros v f H F. apply le_IZR. rewrite abs_IZR. apply Rabs_le_between. apply Rabs_le_between in H.
    assert (- IZR S <= IZR S * f <= IZR S) by (split; nra). lra. }
  assert (YB := BND y _ EY (SIN_bound _)). assert (XB := BND x _ EX (COS_bound _)).
  assert (RES : forall m', in_range (ct c) m' = true -> (m' mod 2 ^ (bits (ct c) - 1) = a)%Z ->
            cordic c 41 true m' = Ok (sgnz m' (s * y)) /\ cordic c 41 false m' = Ok (k * x)%Z).
  { intros m' M' EA. unfold cordic. rewrite (fold_eq c p m' BT B64 CF HP PM HPI M'). rewrite EA, CFD. cbn [bind]. rewrite HK, HA. cbn [bind].
    rewrite Z0, WK. cbn [bind]. rewrite firstn_all2 by (rewrite LA; auto). rewrite L. cbn [bind]. split.
    - assert (S2 : ((if m' <? 0 then - s else s) = 1 \/ (if m' <? 0 then - s else s) = -1)%Z) by (destruct (m' <? 0)%Z; lia).
      destruct (cmul_sign c y _ BT YB S2) as [-> E2]. cbn [bind]. rewrite E2. unfold sgnz. destruct (m' <? 0)%Z; f_equal; ring.
    - destruct (cmul_sign c x _ BT XB Hk) as [-> E2]. cbn [bind]. rewrite E2. reflexivity. }
  exists (s * y)%Z, (k * x)%Z. destruct (RES m M eq_refl) as [-> ->]. split; [reflexivity|]. split; [reflexivity|].
  assert (FIN : forall t v f g, (t = 1 \/ t = -1)%Z -> Rabs (IZR v - IZR S * f) <= B -> IZR S * Rabs (IZR t * f - g) <= dl * (2 + IZR a / IZR p) ->
     Rabs (IZR (t * v) - IZR S * g) <= B + dl * (2 + IZR a / IZR p)).
  { intros t v f g T H1 H2. rewrite mult_IZR. replace (IZR t * IZR v - IZR S * g) with (IZR t * (IZR v - IZR S * f) + IZR S * (IZR t * f - g)) by ring.
    eapply Rle_trans; [apply Rabs_triang|]. apply Rplus_le_compat.
    - rewrite Rabs_mult. replace (Rabs (IZR t)) with 1; [lra|]. destruct T as [-> | ->]; rewrite <- abs_IZR; reflexivity.
    - rewrite Rabs_mult, (Rabs_right (IZR S)) by lra. exact H2. }
  split; [apply (FIN s y _ _ Hs EY FS)|]. split; [apply (FIN k x _ _ Hk EX FC)|]. exact RES.
Qed.

Ltac zz := match goal with
  | |- (_ <= _)%Z => vm_compute; congruence
  | |- (_ < _)%Z => vm_compute; congruence
  | |- (_ <= _ < _)%Z => vm_compute; split; congruence
  | |- cordic_k F32 = _ => exact k32 | |- cordic_k F64 = _ => exact k64
  | |- cordic_angels F32 = _ => exact a32 | |- cordic_angels F64 = _ => exact a64
  | |- _ = _ => vm_compute; reflexivity
  end.
Lemma bigs : big int32 /\ big int64 /\ big int128.
Proof. unfold big. repeat split; vm_compute; congruence. Qed.
Lemma nonneg32 : Forall (fun a => (0 <= a)%Z) al32.
Proof. unfold al32. repeat constructor; discriminate. Qed.
Lemma nonneg64 : Forall (fun a => (0 <= a)%Z) al64.
Proof. unfold al64. repeat constructor; discriminate. Qed.
Lemma pi32 : Rabs (PI * IZR (2 ^ 16) - IZR 205887) <= 0.42.
Proof. pows. interval with (i_prec 80). Qed.
Lemma pi64 : Rabs (PI * IZR (2 ^ 32) - IZR 13493037704) <= 0.5222.
Proof. pows. interval with (i_prec 80). Qed.
Lemma core32 Q : (0 <= Q <= 205887 - 205887 / 2)%Z -> exists x y, cordic_loop F32 Q 0 al32 K32 0 0 = Ok (x, y) /\
    Rabs (IZR y - IZR (2 ^ 16) * sin (IZR Q / IZR (2 ^ 16))) <= 75.8 /\ Rabs (IZR x - IZR (2 ^ 16) * cos (IZR Q / IZR (2 ^ 16))) <= 75.8.
Proof.
  destruct bigs as (B1 & B2 & B3).
  apply (core F32 K32 al32 tl32 (2 ^ 16) (205887 - 205887 / 2) 1.6 75.8); try zz; try assumption.
  - exact tab32.
  - pose proof gain32 as G. pows. lra.
  - exact nonneg32.
  - replace (ef 0 al32 0) with 43115512%Z by (vm_compute; reflexivity). replace (sumz tl32) with 23102193%Z by (vm_compute; reflexivity).
    replace (rf al32 _) with 11%Z by (vm_compute; reflexivity). unfold U. lra.
Qed.
Lemma core64 Q : (0 <= Q <= 13493037704 - 13493037704 / 2)%Z -> exists x y, cordic_loop F64 Q 0 al64 K64 0 0 = Ok (x, y) /\
    Rabs (IZR y - IZR (2 ^ 32) * sin (IZR Q / IZR (2 ^ 32))) <= 79.2 /\ Rabs (IZR x - IZR (2 ^ 32) * cos (IZR Q / IZR (2 ^ 32))) <= 79.2.
Proof.
  destruct bigs as (B1 & B2 & B3).
  apply (core F64 K64 al64 tl64 (2 ^ 32) (13493037704 - 13493037704 / 2) 0.5 79.2); try zz; try assumption.
  - exact tab64.
  - pose proof gain64 as G. pows. lra.
  - exact nonneg64.
  - replace (ef 0 al64 0) with 43115512%Z by (vm_compute; reflexivity). replace (sumz tl64) with 24619697%Z by (vm_compute; reflexivity).
    replace (rf al64 _) with 14%Z by (vm_compute; reflexivity). unfold U. lra.
Qed.
Lemma gen32 m : valid F32 m = true -> let a := (m mod 2 ^ 31)%Z in
  exists y x, cordic_sine32 m = Ok (sgnz m y) /\ cordic_cosine32 m = Ok x /\
    Rabs (rval 16 y - sin (rval 16 a)) <= ulp 16 * (77 + rval 16 a / 7) /\
    Rabs (rval 16 x - cos (rval 16 a)) <= ulp 16 * (77 + rval 16 a / 7) /\
    (forall m', valid F32 m' = true -> (m' mod 2 ^ 31 = a)%Z -> cordic_sine32 m' = Ok (sgnz m' y) /\ cordic_cosine32 m' = Ok x).
Proof.
  intros M a. destruct bigs as (B1 & B2 & B3).
  pose proof (cordic_gen F32 205887 K32 al32 (2 ^ 16) 75.8 0.42 B1 B2) as G.
  do 10 specialize (G ltac:(zz)). specialize (G ltac:(zz)). specialize (G pi32).
  assert (MB : IZR (2 ^ 16) + 75.8 <= IZR (maxv (ct F32))) by (change (maxv (ct F32)) with 2147483647%Z; pows; lra).
  destruct (G MB core32 m M) as (y & x & E1 & E2 & E3 & E4 & E5). clear G.
  unfold cordic_sine32, cordic_cosine32.
  change (bits (ct F32) - 1)%Z with 31%Z in *. fold a in E3, E4, E5. exists y, x. split; [exact E1|]. split; [exact E2|].
    assert (A0 : 0 <= IZR a) by (apply IZR_le, Z.mod_pos_bound; reflexivity).
    assert (FIN : forall v f, Rabs (IZR v - IZR (2 ^ 16) * f) <= 75.8 + 0.42 * (2 + IZR a / 205887) -> Rabs (rval 16 v - f) <= ulp 16 * (77 + rval 16 a / 7)).
    { intros v f H. unfold rval, ulp. revert H. pows. intros H. apply Rabs_le_between in H. apply Rabs_le_between.
      replace (/ 65536 * (77 + IZR a / 65536 / 7)) with ((77 + IZR a / 65536 / 7) / 65536) by field. lra. }
    split; [apply FIN, E3|]. split; [apply FIN, E4|]. exact E5.
Qed.
Lemma gen64 m : valid F64 m = true -> let a := (m mod 2 ^ 63)%Z in
  exists y x, cordic_sine64 m = Ok (sgnz m y) /\ cordic_cosine64 m = Ok x /\
    Rabs (rval 32 y - sin (rval 32 a)) <= ulp 32 * (81 + rval 32 a / 6) /\
    Rabs (rval 32 x - cos (rval 32 a)) <= ulp 32 * (81 + rval 32 a / 6) /\
    (forall m', valid F64 m' = true -> (m' mod 2 ^ 63 = a)%Z -> cordic_sine64 m' = Ok (sgnz m' y) /\ cordic_cosine64 m' = Ok x).
Proof.
  intros M a. destruct bigs as (B1 & B2 & B3).
  pose proof (cordic_gen F64 13493037704 K64 al64 (2 ^ 32) 79.2 0.5222 B2 B3) as G.
  do 10 specialize (G ltac:(zz)). specialize (G ltac:(zz)). specialize (G pi64).
  assert (MB : IZR (2 ^ 32) + 79.2 <= IZR (maxv (ct F64))) by (change (maxv (ct F64)) with 9223372036854775807%Z; pows; lra).
  destruct (G MB core64 m M) as (y & x & E1 & E2 & E3 & E4 & E5). clear G.
  unfold cordic_sine64, cordic_cosine64.
  change (bits (ct F64) - 1)%Z with 63%Z in *. fold a in E3, E4, E5. exists y, x. split; [exact E1|]. split; [exact E2|].
    assert (A0 : 0 <= IZR a) by (apply IZR_le, Z.mod_pos_bound; reflexivity).
    assert (FIN : forall v f, Rabs (IZR v - IZR (2 ^ 32) * f) <= 79.2 + 0.5222 * (2 + IZR a / 13493037704) -> Rabs (rval 32 v - f) <= ulp 32 * (81 + rval 32 a / 6)).
    { intros v f H. unfold rval, ulp. revert H. pows. intros H. apply Rabs_le_between in H. apply Rabs_le_between.
      replace (/ 4294967296 * (81 + IZR a / 4294967296 / 6)) with ((81 + IZR a / 4294967296 / 6) / 4294967296) by field. lra. }
    split; [apply FIN, E3|]. split; [apply FIN, E4|]. exact E5.
Qed.

Lemma sine32_ok m : valid F32 m = true -> (0 <= m)%Z -> exists y, cordic_sine32 m = Ok y /\ Rabs (rval 16 y - sin (rval 16 m)) <= ulp 16 * (77 + rval 16 m / 7).
Proof.
  intros V P. destruct (gen32 m V) as (y & x & E & _ & A & _). exists y.
  assert (M : (m mod 2 ^ 31 = m)%Z) by (apply Z.mod_small; apply in_range_iff in V; change (maxv (ct F32)) with (2 ^ 31 - 1)%Z in V; lia).
  rewrite M in A. unfold sgnz in E. destruct (Z.ltb_spec m 0); [lia|]. split; [exact E|exact A].
Qed.
Lemma sine64_ok m : valid F64 m = true -> (0 <= m)%Z -> exists y, cordic_sine64 m = Ok y /\ Rabs (rval 32 y - sin (rval 32 m)) <= ulp 32 * (81 + rval 32 m / 6).
Proof.
  intros V P. destruct (gen64 m V) as (y & x & E & _ & A & _). exists y.
  assert (M : (m mod 2 ^ 63 = m)%Z) by (apply Z.mod_small; apply in_range_iff in V; change (maxv (ct F64)) with (2 ^ 63 - 1)%Z in V; lia).
  rewrite M in A. unfold sgnz in E. destruct (Z.ltb_spec m 0); [lia|]. split; [exact E|exact A].
Qed.
Lemma cosine32_ok m : valid F32 m = true -> (0 <= m)%Z -> exists y, cordic_cosine32 m = Ok y /\ Rabs (rval 16 y - cos (rval 16 m)) <= ulp 16 * (77 + rval 16 m / 7).
Proof.
  intros V P. destruct (gen32 m V) as (y & x & _ & E & _ & A & _). exists x.
  assert (M : (m mod 2 ^ 31 = m)%Z) by (apply Z.mod_small; apply in_range_iff in V; change (maxv (ct F32)) with (2 ^ 31 - 1)%Z in V; lia).
  rewrite M in A. split; [exact E|exact A].
Qed.
Lemma cosine64_ok m : valid F64 m = true -> (0 <= m)%Z -> exists y, cordic_cosine64 m = Ok y /\ Rabs (rval 32 y - cos (rval 32 m)) <= ulp 32 * (81 + rval 32 m / 6).
Proof.
  intros V P. destruct (gen64 m V) as (y & x & _ & E & _ & A & _). exists x.
  assert (M : (m mod 2 ^ 63 = m)%Z) by (apply Z.mod_small; apply in_range_iff in V; change (maxv (ct F64)) with (2 ^ 63 - 1)%Z in V; lia).
  rewrite M in A. split; [exact E|exact A].
Qed.
Lemma neg32 m : valid F32 m = true -> (m < 0)%Z -> exists y x, cordic_sine32 (m + 2 ^ 31) = Ok y /\ cordic_sine32 m = Ok (- y)%Z /\
  cordic_cosine32 (m + 2 ^ 31) = Ok x /\ cordic_cosine32 m = Ok x.
Proof.
  intros V N. destruct (gen32 m V) as (y & x & E1 & E2 & _ & _ & G). exists y, x.
  apply in_range_iff in V. change (maxv (ct F32)) with (2 ^ 31 - 1)%Z in V. change (minv (ct F32)) with (- 2 ^ 31)%Z in V.
  destruct (G (m + 2 ^ 31)%Z) as [G1 G2].
  { apply in_range_iff. change (maxv (ct F32)) with (2 ^ 31 - 1)%Z. change (minv (ct F32)) with (- 2 ^ 31)%Z. lia. }
  { replace (m + 2 ^ 31)%Z with (m + 1 * 2 ^ 31)%Z by lia. apply Z.mod_add. discriminate. }
  unfold sgnz in *. destruct (Z.ltb_spec m 0); [|lia]. destruct (Z.ltb_spec (m + 2 ^ 31) 0); [lia|]. split; [exact G1|]. split; [exact E1|]. split; [exact G2|exact E2].
Qed.
Lemma neg64 m : valid F64 m = true -> (m < 0)%Z -> exists y x, cordic_sine64 (m + 2 ^ 63) = Ok y /\ cordic_sine64 m = Ok (- y)%Z /\
  cordic_cosine64 (m + 2 ^ 63) = Ok x /\ cordic_cosine64 m = Ok x.
Proof.
  intros V N. destruct (gen64 m V) as (y & x & E1 & E2 & _ & _ & G). exists y, x.
  apply in_range_iff in V. change (maxv (ct F64)) with (2 ^ 63 - 1)%Z in V. change (minv (ct F64)) with (- 2 ^ 63)%Z in V.
  destruct (G (m + 2 ^ 63)%Z) as [G1 G2].
  { apply in_range_iff. change (maxv (ct F64)) with (2 ^ 63 - 1)%Z. change (minv (ct F64)) with (- 2 ^ 63)%Z. lia. }
  { replace (m + 2 ^ 63)%Z with (m + 1 * 2 ^ 63)%Z by lia. apply Z.mod_add. discriminate. }
  unfold sgnz in *. destruct (Z.ltb_spec m 0); [|lia]. destruct (Z.ltb_spec (m + 2 ^ 63) 0); [lia|]. split; [exact G1|]. split; [exact E1|]. split; [exact G2|exact E2].
Qed.
Ltac run32 := unfold cordic_sine32, cordic_cosine32, cordic; rewrite k32, a32; vm_compute; reflexivity.
Ltac run64 := unfold cordic_sine64, cordic_cosine64, cordic; rewrite k64, a64; vm_compute; reflexivity.
Lemma odd_refuted : exists m a b, valid F32 m = true /\ rval 16 m = 1 /\ cordic_sine32 m = Ok a /\ cordic_sine32 (- m) = Ok b /\ b <> (- a)%Z /\
  0.5 < Rabs (rval 16 b - sin (-1)).
Proof.
  exists 65536%Z, 55150%Z, (-16526)%Z. split; [reflexivity|]. split; [unfold rval; pows; lra|]. split; [run32|].
  split; [run32|]. split; [discriminate|]. unfold rval. pows. interval with (i_prec 60).
Qed.
Lemma zero_refuted : exists y z, cordic_sine32 0 = Ok y /\ rval 16 y = -8 * ulp 16 /\ cordic_sine64 0 = Ok z /\ rval 32 z = -3 * ulp 32.
Proof. exists (-8)%Z, (-3)%Z. split; [run32|]. split; [unfold rval, ulp; pows; lra|]. split; [run64|unfold rval, ulp; pows; lra]. Qed.

Lemma case86 : cordic_sine32 65536 = Ok 55150%Z /\ cordic_sine64 (2 ^ 32) = Ok 3614090358%Z.
Proof. split; [run32|run64]. Qed.
Lemma case87 : cordic_sine32 (-65536) = Ok (-16526)%Z /\ cordic_sine32 (-65536 + 2 ^ 31) = Ok 16526%Z.
Proof. split; run32. Qed.
Lemma case108 : cordic_cosine32 (3 * 65536) = Ok (-64879)%Z.
Proof. run32. Qed.
