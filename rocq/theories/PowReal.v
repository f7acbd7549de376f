(** pow with a fixed-point exponent against the real power. *)
From Coq Require Import ZArith QArith Qreals Reals RMicromega Lra Lia Bool.
From Interval Require Import Tactic.
From Verif Require Import Base Fixed Math Spec SpecReal SpecLemmas BaseLemmas FixedLemmas MathProofs MathThms PowProofs PowAcc RealLemmas StdProofs SinPoly SinThms
  LogProofs LogThms LogMono RealThms ExpProofs ExpDef ExpThms.
Open Scope R_scope.

Lemma q2r f m : (0 <= f)%Z -> Q2R (qval f m) = rval f m.
Proof. intros F. unfold Q2R, qval, rval, Rdiv. cbn [Qnum Qden]. rewrite pow2p_pos by auto. reflexivity. Qed.
Lemma q2r_pow f b n : (0 <= f)%Z -> (0 <= n)%Z -> 0 < rval f b -> Q2R (qval f b ^ n) = Rpower (rval f b) (IZR n).
Proof. intros F N B. rewrite Q2RpowerRZ by (right; lia). rewrite q2r by auto. apply powerRZ_Rpower; auto. Qed.
Lemma ulp_q f : (0 <= f)%Z -> Q2R (qval f 1) = ulp f.
Proof. intros F. rewrite q2r by auto. unfold rval, ulp, Rdiv. ring. Qed.
Lemma Q2R_int n : Q2R (inject_Z n) = IZR n.
Proof. unfold Q2R, inject_Z. cbn [Qnum Qden]. lra. Qed.
Lemma exp_le a b : a <= b -> exp a <= exp b.
Proof. intros H. destruct (Rle_lt_or_eq_dec _ _ H) as [L| ->]; [left; apply exp_increasing; auto|lra]. Qed.
Lemma Rabs_in x y : Rabs x <= y -> - y <= x <= y.
Proof. intros A. unfold Rabs in A. destruct (Rcase_abs x); lra. Qed.

(** the integral power *)
Lemma ipow_ge1 c b n : std c -> valid c b = true -> 1 <= rval (cf c) b -> (0 <= n)%Z -> in_range (ct c) n = true ->
  Rpower (rval (cf c) b) (IZR n) * IZR (2 ^ cf c) <= IZR (hi (bits (ct c)) (sgn (ct c))) ->
  exists p, fx_pow_int c (ct c) b n = Ok p /\ valid c p = true /\ rval (cf c) p <= Rpower (rval (cf c) b) (IZR n) /\
  Rpower (rval (cf c) b) (IZR n) * (1 - IZR n * ulp (cf c)) <= rval (cf c) p.
Proof.
  intros HS V B N IR H. pose proof (std_wf c HS) as W. pose proof (std_nr c HS) as NR. pose proof (std_M c HS) as HM.
  assert (HF : (0 <= cf c)%Z) by (destruct HS as [-> | ->]; cbn; lia). pose proof (pow2_gt0 (cf c) HF) as P2.
  assert (SF : sgn (ct c) = true -> (cf c <= bits (ct c) - 2)%Z) by (destruct HS as [-> | ->]; cbn; lia).
  destruct (Z.eq_dec n 0) as [->|NZ].
  - destruct (proj1 (pow_01_thm c (ct c) b W NR (wf_ct c W) V ltac:(destruct HS as [-> | ->]; [exists 65536%Z|exists 4294967296%Z]; split; [cbv; split; discriminate|reflexivity|cbv; split; discriminate|reflexivity]))) as (p & E & Q).
    exists p. split; [exact E|]. assert (R1 : rval (cf c) p = 1) by (rewrite <- q2r by auto; apply Qeq_eqR in Q; rewrite Q; apply Q2R_1).
    split; [apply (pow_int_valid c b 0 p); auto|]. rewrite Rpower_O by lra. lra.
  - destruct (pow_ge1_accuracy c W NR SF (ct c) b n (wf_ct c W) IR V ltac:(lia)) as (p & E & VP & A1 & A2).
    + apply Rle_Qle. rewrite q2r, Q2R_1 by auto. lra.
    + apply Rle_Qle. rewrite q2r_pow, q2r by (auto; lra). set (P := Rpower (rval (cf c) b) (IZR n)) in *. apply (Rmult_le_reg_r (IZR (2 ^ cf c))); [lra|]. unfold rval, Rdiv. rewrite Rmult_assoc, Rinv_l by lra. change (maxv (ct c)) with (hi (bits (ct c)) (sgn (ct c))). lra.
    + exists p. split; [exact E|]. split; [exact VP|]. apply Qle_Rle in A1. rewrite q2r, q2r_pow in A1 by (auto; lra). split; [exact A1|].
      apply Qle_Rle in A2. rewrite Q2R_minus, !Q2R_mult, q2r, ulp_q, Q2R_int in A2 by auto.
      rewrite !q2r_pow in A2 by (auto; lra || lia). set (P := Rpower (rval (cf c) b) (IZR n)) in *.
      assert (P1 : Rpower (rval (cf c) b) (IZR (n - 1)) <= P).
      { unfold P, Rpower. apply exp_le. apply Rmult_le_compat_r; [|apply IZR_le; lia].
        rewrite <- ln_1. destruct (Rle_lt_or_eq_dec _ _ B) as [L|<-]; [left; apply ln_increasing; lra|lra]. }
      pose proof (ulp_nn (cf c)) as UN. assert (N1 : 0 <= IZR n) by (apply IZR_le; lia).
      assert (IZR n * Rpower (rval (cf c) b) (IZR (n - 1)) * ulp (cf c) <= IZR n * P * ulp (cf c)).
      { apply Rmult_le_compat_r; [auto|]. apply Rmult_le_compat_l; auto. }
      lra.
Qed.
Lemma ipow_unit c b n : std c -> valid c b = true -> 0 < rval (cf c) b <= 1 -> (0 <= n)%Z -> in_range (ct c) n = true ->
  exists p, fx_pow_int c (ct c) b n = Ok p /\ valid c p = true /\
  Rabs (rval (cf c) p - Rpower (rval (cf c) b) (IZR n)) <= IZR n * ulp (cf c).
Proof.
  intros HS V (B0 & B1) N IR. pose proof (std_wf c HS) as W. pose proof (std_nr c HS) as NR.
  assert (HF : (0 <= cf c)%Z) by (destruct HS as [-> | ->]; cbn; lia).
  assert (SF : sgn (ct c) = true -> (cf c <= bits (ct c) - 2)%Z) by (destruct HS as [-> | ->]; cbn; lia).
  destruct (pow_unit_accuracy c W NR SF (ct c) b n (wf_ct c W) IR V N) as (p & E & VP & A).
  - apply Qabs_le_iff. split; apply Rle_Qle; try rewrite Q2R_opp; rewrite q2r, Q2R_1 by auto; lra.
  - exists p. split; [exact E|]. split; [exact VP|]. apply Qabs_le_iff in A. destruct A as (A1 & A2). apply Qle_Rle in A1, A2.
    rewrite Q2R_minus, q2r, q2r_pow in A1 by auto. rewrite Q2R_minus, q2r, q2r_pow in A2 by auto.
    rewrite Q2R_opp, Q2R_mult, ulp_q, Q2R_int in A1 by auto. rewrite Q2R_mult, ulp_q, Q2R_int in A2 by auto. apply Rabs_le. lra.
Qed.

Section POW.
Variable c : cfg.
Hypothesis HS : std c.
Let f := cf c.
Let U := ulp f.
Variables LE K CAP : R.
Hypothesis LE0 : 0 <= LE.
Hypothesis K0 : 0 < K <= 1.
Hypothesis CAPV : forall z, 0 <= rval f z < CAP -> valid c z = true.
Hypothesis CAPP : forall x, x < CAP -> x * IZR (2 ^ f) <= IZR (hi (bits (ct c)) (sgn (ct c))) \/ IZR (hi (bits (ct c)) (sgn (ct c))) < x * IZR (2 ^ f) < IZR (hi (bits (ct c)) (sgn (ct c))) + 1.
Hypothesis LOG : forall m, valid c m = true -> 0 < rval f m -> exists r, fx_log c m = Ok r /\ valid c r = true /\ Rabs (rval f r - ln (rval f m)) <= LE.
Hypothesis LOG1 : fx_log c (2 ^ f) = Ok 0%Z.
Hypothesis EXP : forall m, valid c m = true -> exp (Rabs (rval f m)) < CAP ->
  exists r, fx_exp c m = Ok r /\ valid c r = true /\ 0 < rval f r /\
  (0 <= rval f m -> K * exp (rval f m) - U <= rval f r <= exp (rval f m)) /\
  (rval f m < 0 -> exp (rval f m) - U < rval f r <= 1.226 * exp (rval f m)).

Lemma pf0 : (0 <= f)%Z. Proof. unfold f. destruct HS as [-> | ->]; cbn; lia. Qed.
Lemma pM : (65536 <= 2 ^ f)%Z. Proof. apply (std_M c HS). Qed.
Lemma pU : 0 < U <= / 65536.
Proof. unfold U, ulp. pose proof pM as H. apply IZR_le in H. split; [apply Rinv_0_lt_compat; lra|apply Rinv_le_contravar; lra]. Qed.
Lemma rv_le a b : (a <= b)%Z -> rval f a <= rval f b.
Proof. intros H. unfold rval. pose proof (pow2_gt0 f pf0). apply Rmult_le_compat_r; [left; apply Rinv_0_lt_compat; auto|apply IZR_le; auto]. Qed.
Lemma rv_pos a : 0 < rval f a -> (0 < a)%Z.
Proof. intros H. destruct (Z.lt_ge_cases 0 a); auto. pose proof (rv_le a 0 ltac:(lia)). unfold rval in *. unfold Rdiv in H1 at 2. rewrite Rmult_0_l in H1. lra. Qed.
Lemma rv_M : rval f (2 ^ f) = 1.
Proof. unfold rval. pose proof (pow2_gt0 f pf0). field. lra. Qed.
Lemma rv_ge1 a : 1 <= rval f a -> (2 ^ f <= a)%Z.
Proof.
  intros H. pose proof (pow2_gt0 f pf0) as P. apply le_IZR. unfold rval in H. apply (Rmult_le_compat_r (IZR (2 ^ f))) in H; [|lra].
  unfold Rdiv in H. rewrite Rmult_assoc, Rinv_l in H by lra. lra.
Qed.
Lemma rv_split e : (0 <= e)%Z -> exists n r, (e = n * 2 ^ f + r)%Z /\ (0 <= r < 2 ^ f)%Z /\ (0 <= n)%Z /\ Z.quot e (2 ^ f) = n /\ Z.rem e (2 ^ f) = r /\
  rval f e = IZR n + rval f r /\ 0 <= rval f r < 1.
Proof.
  intros E. pose proof pM as HM. pose proof (pow2_gt0 f pf0) as P. exists (Z.quot e (2 ^ f)), (Z.rem e (2 ^ f)).
  pose proof (Z.quot_rem e (2 ^ f) ltac:(lia)) as Q. pose proof (Z.rem_bound_pos e (2 ^ f) E ltac:(lia)) as R.
  assert (E1 : e = (Z.quot e (2 ^ f) * 2 ^ f + Z.rem e (2 ^ f))%Z) by lia.
  repeat split; try lia.
  - apply Z.quot_pos; lia.
  - rewrite E1 at 1. unfold rval. rewrite plus_IZR, mult_IZR. field. lra.
  - unfold rval. apply Rmult_le_pos; [apply IZR_le; lia|left; apply Rinv_0_lt_compat; auto].
  - unfold rval. apply (Rmult_lt_reg_r (IZR (2 ^ f))); auto. unfold Rdiv. rewrite Rmult_assoc, Rinv_l, Rmult_1_r, Rmult_1_l by lra. apply IZR_lt. lia.
Qed.

Theorem pow_ge1_real b e : valid c b = true -> valid c e = true -> (0 <= e)%Z -> 1 <= rval f b -> rval f e * U <= 1 ->
  rval f b * exp LE < CAP -> Rpower (rval f b) (rval f e) * exp LE + U < CAP ->
  exists r, fx_pow c b e = Ok r /\ valid c r = true /\ rval f r <= Rpower (rval f b) (rval f e) * exp LE /\
  (K * exp (- (LE + U)) * (1 - rval f e * U) - U) * Rpower (rval f b) (rval f e) - U <= rval f r.
Proof.
  intros Vb Ve E0 B1 EU HB HP. pose proof (std_wf c HS) as W. pose proof (std_nr c HS) as NR. pose proof pU as HU. pose proof pM as HM.
  assert (bM := rv_ge1 b B1). destruct (rv_split e E0) as (n & rr & EQ & RR & N0 & Q1 & Q2 & VE & FR).
  set (B := rval f b) in *. set (fr := rval f rr) in *.
  assert (LB : 0 <= ln B) by (rewrite <- ln_1; destruct (Rle_lt_or_eq_dec _ _ B1) as [L|<-]; [left; apply ln_increasing; lra|lra]).
  assert (EL : 1 <= exp LE) by (rewrite <- exp_0; apply exp_le; auto).
  assert (N1 : 0 <= IZR n) by (apply IZR_le; auto).
  assert (PN : 1 <= Rpower B (IZR n) <= Rpower B (rval f e)).
  { split; [rewrite <- exp_0; apply exp_le; apply Rmult_le_pos; auto|]. apply exp_le. apply Rmult_le_compat_r; auto. rewrite VE. lra. }
  assert (PF : Rpower B (rval f e) = Rpower B (IZR n) * Rpower B fr) by (rewrite VE; apply Rpower_plus).
  assert (PF1 : 1 <= Rpower B fr <= B).
  { split; [rewrite <- exp_0; apply exp_le; apply Rmult_le_pos; lra|]. rewrite <- (Rpower_1 B) at 2 by lra. apply exp_le. apply Rmult_le_compat_r; lra. }
  assert (VRR : valid c rr = true) by (apply (std_valid c HS) in Ve; apply (std_valid c HS); fold f in Ve |- *; clear - Ve EQ RR N0 HM; nia).
  assert (IN : in_range (ct c) n = true).
  { apply (std_valid c HS) in Ve. apply (std_valid c HS). fold f in Ve |- *. clear - Ve EQ RR N0 HM. nia. }
  destruct (ipow_ge1 c b n HS Vb B1 N0 IN) as (p & EP & VP & P1 & P2).
  { fold f. fold B. destruct (CAPP (Rpower B (IZR n) + U)) as [H|H]; [nra| |].
    - pose proof (pow2_gt0 f pf0). assert (U * IZR (2 ^ f) = 1) by (unfold U, ulp; apply Rinv_l; lra). lra.
    - pose proof (pow2_gt0 f pf0). assert (U * IZR (2 ^ f) = 1) by (unfold U, ulp; apply Rinv_l; lra). lra. }
  fold f in P1, P2. fold B in P1, P2. fold U in P2.
  destruct (LOG b Vb ltac:(fold B; lra)) as (l & EL' & VL & AL). fold B in AL.
  assert (L0 : (0 <= l)%Z).
  { apply (log_mono c (2 ^ f) b 0 l); auto; [unfold f; destruct HS as [-> | ->]; reflexivity|clear - HM; lia]. }
  apply Rabs_in in AL. assert (RL : 0 <= rval f l) by (replace 0 with (rval f 0) by (unfold rval; lra); apply rv_le; auto).
  assert (MB : (0 <= rr * l / 2 ^ f <= l)%Z).
  { clear - RR L0 HM. split; [apply Z.div_pos; nia|apply Z.div_le_upper_bound; nia]. }
  assert (VMm : valid c (rr * l / 2 ^ f) = true).
  { apply (std_valid c HS) in VL. apply (std_valid c HS). lia. }
  pose proof (fm_r f rr l pM) as FM. unfold fm in FM. fold fr in FM. fold U in FM. set (mm := (rr * l / 2 ^ f)%Z) in *.
  assert (RM0 : 0 <= rval f mm) by (replace 0 with (rval f 0) by (unfold rval; lra); apply rv_le; apply MB).
  assert (U1 : rval f mm <= fr * ln B + LE) by nra.
  assert (U2 : fr * ln B - (LE + U) <= rval f mm) by nra.
  assert (X1 : exp (rval f mm) <= Rpower B fr * exp LE) by (unfold Rpower; rewrite <- exp_plus; apply exp_le; lra).
  assert (X2 : Rpower B fr * exp (- (LE + U)) <= exp (rval f mm)) by (unfold Rpower; rewrite <- exp_plus; apply exp_le; lra).
  destruct (EXP mm VMm) as (x & EX & VX & X0 & XA & _).
  { rewrite Rabs_pos_eq by auto. eapply Rle_lt_trans; [exact X1|]. nra. }
  destruct (XA RM0) as (XA1 & XA2). clear XA.
  pose proof (fm_r f p x pM) as FP. unfold fm in FP. fold U in FP. set (r := (p * x / 2 ^ f)%Z) in *.
  set (PB := Rpower B (IZR n)) in *. set (PQ := Rpower B fr) in *. rewrite PF in *. set (X := rval f x) in *. set (pr := rval f p) in *.
  assert (NU : IZR n * U <= 1) by (rewrite VE in EU; nra).
  assert (PR0 : 0 <= pr).
  { eapply Rle_trans; [|exact P2]. apply Rmult_le_pos; lra. }
  assert (UPX : pr * X <= PB * PQ * exp LE).
  { apply Rle_trans with (PB * X); [apply Rmult_le_compat_r; lra|]. rewrite Rmult_assoc. apply Rmult_le_compat_l; lra. }
  assert (r0 : (0 <= r)%Z).
  { apply Z.div_pos; [|clear - HM; lia]. apply Z.mul_nonneg_nonneg; [|apply rv_pos in X0; clear - X0; lia]. apply le_IZR. unfold pr, rval in PR0.
    pose proof (pow2_gt0 f pf0). apply (Rmult_le_compat_r (IZR (2 ^ f))) in PR0; [|lra]. unfold Rdiv in PR0. rewrite Rmult_assoc, Rinv_l in PR0 by lra. lra. }
  assert (RR0 : 0 <= rval f r) by (replace 0 with (rval f 0) by (unfold rval; lra); apply rv_le; exact r0).
  assert (VR : valid c r = true) by (apply CAPV; split; [auto|lra]).
  exists r. split.
  { rewrite pow_split by (auto; clear - bM HM; lia). fold f. rewrite Q1, Q2, EP. cbn [bind]. rewrite EL'. cbn [bind].
    rewrite s_mul; auto. fold f. fold mm. cbn [bind].
    rewrite EX. cbn [bind]. rewrite s_mul by auto. reflexivity. }
  split; [exact VR|]. split; [lra|].
  assert (K1 : 0 <= K * exp (- (LE + U))) by (apply Rmult_le_pos; [lra|left; apply exp_pos]).
  set (EE := exp (- (LE + U))) in *.
  assert (XL : K * (PQ * EE) - U <= X) by nra.
  (* p X >= PB (1 - nU) (K PQ EE - U), then weaken *)
  assert (NE : IZR n <= rval f e) by (rewrite VE; lra).
  assert (S1 : PB * (1 - IZR n * U) * X <= pr * X) by (apply Rmult_le_compat_r; lra).
  assert (S2 : PB * (1 - IZR n * U) * (K * (PQ * EE) - U) <= PB * (1 - IZR n * U) * X).
  { apply Rmult_le_compat_l; [apply Rmult_le_pos; lra|exact XL]. }
  assert (S3 : PB * (1 - IZR n * U) * U <= PB * PQ * U).
  { apply Rmult_le_compat_r; [lra|]. apply Rmult_le_compat_l; [lra|]. assert (0 <= IZR n * U) by (apply Rmult_le_pos; lra). lra. }
  assert (S4 : K * EE * (1 - rval f e * U) * (PB * PQ) <= PB * (1 - IZR n * U) * (K * (PQ * EE))).
  { replace (PB * (1 - IZR n * U) * (K * (PQ * EE))) with (K * EE * (1 - IZR n * U) * (PB * PQ)) by ring.
    apply Rmult_le_compat_r; [apply Rmult_le_pos; lra|]. apply Rmult_le_compat_l; [exact K1|].
    assert (IZR n * U <= rval f e * U) by (apply Rmult_le_compat_r; lra). lra. }
  lra.
Qed.

Lemma small_valid z : Rabs (rval f z) <= 4 -> valid c z = true.
Proof.
  intros H. pose proof pM as HM. pose proof (pow2_gt0 f pf0) as P. rewrite rval_abs in H.
  assert (A : (Z.abs z <= 4 * 2 ^ f)%Z).
  { apply le_IZR. rewrite mult_IZR. unfold rval in H. apply (Rmult_le_compat_r (IZR (2 ^ f))) in H; [|lra].
    unfold Rdiv in H. rewrite Rmult_assoc, Rinv_l in H by lra. lra. }
  apply (std_valid c HS). fold f. clear - A HM. nia.
Qed.
Theorem pow_le1_real b e : valid c b = true -> valid c e = true -> (0 <= e)%Z -> 0 < rval f b <= 1 -> rval f e * U <= 1 ->
  exp (LE + U) < CAP * rval f b ->
  exists r, fx_pow c b e = Ok r /\ valid c r = true /\ rval f r <= 1.226 * exp LE * Rpower (rval f b) (rval f e) + 1.226 * rval f e * U /\
  exp (- (LE + U)) * Rpower (rval f b) (rval f e) - (2 + 1.226 * rval f e) * U <= rval f r.
Proof.
  intros Vb Ve E0 (B0 & B1) EU HB. pose proof (std_wf c HS) as W. pose proof (std_nr c HS) as NR. pose proof pU as HU. pose proof pM as HM.
  assert (b0 := rv_pos b B0).
  assert (bM : (b <= 2 ^ f)%Z).
  { destruct (Z.le_gt_cases b (2 ^ f)) as [L|L]; auto. exfalso. pose proof (rv_le (2 ^ f + 1) b ltac:(clear - L; lia)) as Q. rewrite rval_add, rv_M in Q.
    assert (R1 : rval f 1 = U) by (unfold rval, U, ulp; lra). lra. }
  destruct (rv_split e E0) as (n & rr & EQ & RR & N0 & Q1 & Q2 & VE & FR).
  set (B := rval f b) in *. set (fr := rval f rr) in *.
  assert (LB : ln B <= 0) by (rewrite <- ln_1; destruct (Rle_lt_or_eq_dec _ _ B1) as [L| ->]; [left; apply ln_increasing; lra|lra]).
  assert (EL : 1 <= exp LE) by (rewrite <- exp_0; apply exp_le; auto).
  assert (N1 : 0 <= IZR n) by (apply IZR_le; auto).
  assert (PN : 0 < Rpower B (IZR n) <= 1).
  { split; [apply exp_pos|]. rewrite <- exp_0. apply exp_le. nra. }
  assert (PF : Rpower B (rval f e) = Rpower B (IZR n) * Rpower B fr) by (rewrite VE; apply Rpower_plus).
  assert (PF1 : 0 < Rpower B fr <= 1).
  { split; [apply exp_pos|]. rewrite <- exp_0. apply exp_le. nra. }
  assert (VRR : valid c rr = true) by (apply (std_valid c HS) in Ve; apply (std_valid c HS); fold f in Ve |- *; clear - Ve EQ RR N0 HM; nia).
  assert (IN : in_range (ct c) n = true).
  { apply (std_valid c HS) in Ve. apply (std_valid c HS). fold f in Ve |- *. clear - Ve EQ RR N0 HM. nia. }
  destruct (ipow_unit c b n HS Vb (conj B0 B1) N0 IN) as (p & EP & VP & P1).
  fold f in P1. fold B in P1. fold U in P1. apply Rabs_in in P1.
  destruct (LOG b Vb ltac:(fold B; lra)) as (l & EL' & VL & AL). fold B in AL.
  assert (L0 : (l <= 0)%Z).
  { apply (log_mono c b (2 ^ f) l 0); auto. unfold f; destruct HS as [-> | ->]; reflexivity. }
  apply Rabs_in in AL. assert (RL : rval f l <= 0) by (replace 0 with (rval f 0) by (unfold rval; lra); apply rv_le; auto).
  assert (MB : (l <= rr * l / 2 ^ f <= 0)%Z).
  { clear - RR L0 HM. split; [apply Z.div_le_lower_bound; nia|]. apply Z.div_le_upper_bound; nia. }
  assert (VMm : valid c (rr * l / 2 ^ f) = true).
  { apply (std_valid c HS) in VL. apply (std_valid c HS). fold f in VL |- *. clear - VL MB HM. nia. }
  pose proof (fm_r f rr l pM) as FM. unfold fm in FM. fold fr in FM. fold U in FM. set (mm := (rr * l / 2 ^ f)%Z) in *.
  assert (RM0 : rval f mm <= 0) by (replace 0 with (rval f 0) by (unfold rval; lra); apply rv_le; apply MB).
  assert (RML : rval f l <= rval f mm) by (apply rv_le; apply MB).
  assert (U1 : rval f mm <= fr * ln B + LE) by (clear - FM AL FR RL LE0; nra).
  assert (U2 : fr * ln B - (LE + U) <= rval f mm) by (clear - FM AL FR RL LE0; nra).
  assert (X1 : exp (rval f mm) <= Rpower B fr * exp LE) by (unfold Rpower; rewrite <- exp_plus; apply exp_le; lra).
  assert (X2 : Rpower B fr * exp (- (LE + U)) <= exp (rval f mm)) by (unfold Rpower; rewrite <- exp_plus; apply exp_le; lra).
  assert (X3 : exp (rval f mm) <= 1) by (rewrite <- exp_0; apply exp_le; auto).
  assert (XX : exists x, fx_exp c mm = Ok x /\ valid c x = true /\ 0 < rval f x /\ exp (rval f mm) - U <= rval f x <= 1.226 * exp (rval f mm)).
  { destruct (Z.eq_dec mm 0) as [E00|NE].
    - rewrite E00. exists (2 ^ f)%Z. split; [apply exp0; auto|]. split; [unfold f; destruct HS as [-> | ->]; reflexivity|]. rewrite rv_M.
      replace (rval f 0) with 0 by (unfold rval; lra). rewrite exp_0. lra.
    - assert (MN : rval f mm < 0).
      { pose proof (rv_le mm (-1) ltac:(clear - MB NE; lia)) as Q. assert (R1 : rval f (-1) = - U) by (unfold rval, U, ulp; lra). lra. }
      destruct (EXP mm VMm) as (x & EX & VX & X0 & _ & XA).
      { rewrite Rabs_left by auto. eapply Rle_lt_trans; [apply exp_le; apply (Ropp_le_contravar _ (ln B - (LE + U))); lra|].
        replace (- (ln B - (LE + U))) with (LE + U + - ln B) by ring. rewrite exp_plus, exp_Ropp, exp_ln by lra.
        apply (Rmult_lt_reg_r B); [lra|]. rewrite Rmult_assoc, Rinv_l by lra. lra. }
      destruct (XA MN). exists x. repeat split; auto; lra. }
  destruct XX as (x & EX & VX & X0 & XA1 & XA2).
  pose proof (fm_r f p x pM) as FP. unfold fm in FP. fold U in FP. set (r := (p * x / 2 ^ f)%Z) in *.
  set (PB := Rpower B (IZR n)) in *. set (PQ := Rpower B fr) in *. rewrite PF in *. set (X := rval f x) in *. set (pr := rval f p) in *.
  set (EM := exp (rval f mm)) in *. set (EE := exp (- (LE + U))) in *. set (ELE := exp LE) in *.
  assert (NU : IZR n * U <= 1) by (rewrite VE in EU; clear - EU FR HU; nra).
  assert (N0U : 0 <= IZR n * U) by (apply Rmult_le_pos; lra).
  assert (NE : IZR n * U <= rval f e * U) by (apply Rmult_le_compat_r; [lra|]; rewrite VE; lra).
  assert (XB : X <= 1.226) by lra.
  assert (H1 : (PB - IZR n * U) * X <= pr * X <= (PB + IZR n * U) * X) by (split; apply Rmult_le_compat_r; lra).
  assert (H2 : 0 <= IZR n * U * X <= 1.226 * (IZR n * U)) by (split; [apply Rmult_le_pos; lra|clear - N0U XB; nra]).
  assert (H3 : PB * X <= 1.226 * ELE * (PB * PQ)).
  { replace (1.226 * ELE * (PB * PQ)) with (PB * (1.226 * (PQ * ELE))) by ring. apply Rmult_le_compat_l; lra. }
  assert (H4 : EE * (PB * PQ) - U <= PB * X).
  { replace (EE * (PB * PQ)) with (PB * (PQ * EE)) by ring. assert (PB * (PQ * EE - U) <= PB * X) by (apply Rmult_le_compat_l; lra).
    assert (PB * U <= 1 * U) by (apply Rmult_le_compat_r; lra). lra. }
  assert (H5 : 0 <= PB * X <= 1.226) by (split; [apply Rmult_le_pos; lra|clear - PN XB X0; nra]).
  assert (VR : valid c r = true) by (apply small_valid; apply Rabs_le; lra).
  exists r. split.
  { rewrite pow_split by (auto; clear - b0; lia). fold f. rewrite Q1, Q2, EP. cbn [bind]. rewrite EL'. cbn [bind].
    rewrite s_mul; auto. fold f. fold mm. cbn [bind]. rewrite EX. cbn [bind]. rewrite s_mul by auto. reflexivity. }
  split; [exact VR|]. split; lra.
Qed.
(** the two round trips *)
Lemma log_exp_real m : valid c m = true -> 0 <= rval f m -> exp (rval f m) < CAP -> U < K ->
  exists a l, fx_exp c m = Ok a /\ fx_log c a = Ok l /\ valid c l = true /\ ln (K - U) - LE <= rval f l - rval f m <= LE.
Proof.
  intros V X0 XC KU. pose proof pU as HU.
  destruct (EXP m V ltac:(rewrite Rabs_pos_eq; auto)) as (a & EA & VA & A0 & XA & _). destruct (XA X0) as (A1 & A2).
  destruct (LOG a VA A0) as (l & EL' & VL & AL). apply Rabs_in in AL.
  exists a, l. split; [exact EA|]. split; [exact EL'|]. split; [exact VL|].
  assert (E1 : 1 <= exp (rval f m)) by (rewrite <- exp_0; apply exp_le; auto).
  assert (A3 : (K - U) * exp (rval f m) <= rval f a) by (clear - A1 E1 HU; nra).
  assert (L1 : ln (rval f a) <= rval f m).
  { rewrite <- (ln_exp (rval f m)). destruct (Rle_lt_or_eq_dec _ _ A2) as [L| ->]; [left; apply ln_increasing; auto|lra]. }
  assert (L2 : ln (K - U) + rval f m <= ln (rval f a)).
  { rewrite <- (ln_exp (rval f m)) at 1. rewrite <- ln_mult by (try apply exp_pos; lra).
    destruct (Rle_lt_or_eq_dec _ _ A3) as [L| ->]; [left; apply ln_increasing; auto|lra]. apply Rmult_lt_0_compat; [lra|apply exp_pos]. }
  lra.
Qed.
Lemma exp_log_ge1_real b : valid c b = true -> 1 <= rval f b -> rval f b * exp LE < CAP ->
  exists l r, fx_log c b = Ok l /\ fx_exp c l = Ok r /\ valid c r = true /\ K * exp (- LE) * rval f b - U <= rval f r <= exp LE * rval f b.
Proof.
  intros V B1 HB. pose proof pU as HU. pose proof (std_wf c HS) as W. pose proof (std_nr c HS) as NR.
  assert (bM : (2 ^ f <= b)%Z).
  { destruct (Z.le_gt_cases (2 ^ f) b) as [L|L]; auto. exfalso. pose proof (rv_le (b + 1) (2 ^ f) ltac:(clear - L; lia)) as Q. rewrite rval_add, rv_M in Q.
    assert (R1 : rval f 1 = U) by (unfold rval, U, ulp; lra). lra. }
  destruct (LOG b V ltac:(lra)) as (l & EL' & VL & AL). apply Rabs_in in AL.
  assert (L0 : (0 <= l)%Z).
  { pose proof pM as HM. apply (log_mono c (2 ^ f) b 0 l); auto; [unfold f; destruct HS as [-> | ->]; reflexivity|clear - HM; lia]. }
  assert (RL : 0 <= rval f l) by (replace 0 with (rval f 0) by (unfold rval; lra); apply rv_le; auto).
  assert (X1 : exp (rval f l) <= exp LE * rval f b).
  { rewrite <- (exp_ln (rval f b)) at 1 by lra. rewrite <- exp_plus. apply exp_le. lra. }
  assert (X2 : exp (- LE) * rval f b <= exp (rval f l)).
  { rewrite <- (exp_ln (rval f b)) at 1 by lra. rewrite <- exp_plus. apply exp_le. lra. }
  destruct (EXP l VL ltac:(rewrite Rabs_pos_eq by auto; lra)) as (r & ER & VR & R0 & XA & _). destruct (XA RL) as (A1 & A2).
  exists l, r. split; [exact EL'|]. split; [exact ER|]. split; [exact VR|]. split; [|lra].
  rewrite Rmult_assoc. assert (K * (exp (- LE) * rval f b) <= K * exp (rval f l)) by (apply Rmult_le_compat_l; lra). lra.
Qed.
Lemma exp_log_le1_real b : valid c b = true -> 0 < rval f b <= 1 -> exp LE < CAP * rval f b ->
  exists l r, fx_log c b = Ok l /\ fx_exp c l = Ok r /\ valid c r = true /\ exp (- LE) * rval f b - U <= rval f r <= 1.226 * exp LE * rval f b.
Proof.
  intros V (B0 & B1) HB. pose proof pU as HU. pose proof pM as HM. pose proof (std_wf c HS) as W. pose proof (std_nr c HS) as NR. assert (b0 := rv_pos b B0).
  assert (bM : (b <= 2 ^ f)%Z).
  { destruct (Z.le_gt_cases b (2 ^ f)) as [L|L]; auto. exfalso. pose proof (rv_le (2 ^ f + 1) b ltac:(clear - L; lia)) as Q. rewrite rval_add, rv_M in Q.
    assert (R1 : rval f 1 = U) by (unfold rval, U, ulp; lra). lra. }
  destruct (LOG b V B0) as (l & EL' & VL & AL). apply Rabs_in in AL.
  assert (L0 : (l <= 0)%Z).
  { apply (log_mono c b (2 ^ f) l 0); auto. unfold f; destruct HS as [-> | ->]; reflexivity. }
  assert (RL : rval f l <= 0) by (replace 0 with (rval f 0) by (unfold rval; lra); apply rv_le; auto).
  assert (X1 : exp (rval f l) <= exp LE * rval f b).
  { rewrite <- (exp_ln (rval f b)) at 1 by lra. rewrite <- exp_plus. apply exp_le. lra. }
  assert (X2 : exp (- LE) * rval f b <= exp (rval f l)).
  { rewrite <- (exp_ln (rval f b)) at 1 by lra. rewrite <- exp_plus. apply exp_le. lra. }
  destruct (Z.eq_dec l 0) as [E00|NE].
  - exists l, (2 ^ f)%Z. split; [exact EL'|]. rewrite E00. split; [apply exp0; auto|]. split; [unfold f; destruct HS as [-> | ->]; reflexivity|]. rewrite rv_M.
    rewrite E00 in X1, X2. replace (rval f 0) with 0 in X1, X2 by (unfold rval; lra). rewrite exp_0 in X1, X2. lra.
  - assert (MN : rval f l < 0).
    { pose proof (rv_le l (-1) ltac:(clear - L0 NE; lia)) as Q. assert (R1 : rval f (-1) = - U) by (unfold rval, U, ulp; lra). lra. }
    destruct (EXP l VL) as (x & EX & VX & X0 & _ & XA).
    { rewrite Rabs_left by auto. eapply Rle_lt_trans; [apply exp_le; apply (Ropp_le_contravar _ (ln (rval f b) - LE)); lra|].
      replace (- (ln (rval f b) - LE)) with (LE + - ln (rval f b)) by ring. rewrite exp_plus, exp_Ropp, exp_ln by lra.
      apply (Rmult_lt_reg_r (rval f b)); [lra|]. rewrite Rmult_assoc, Rinv_l by lra. lra. }
    destruct (XA MN). exists l, x. split; [exact EL'|]. split; [exact EX|]. split; [exact VX|]. lra.
Qed.
End POW.

(** ** The two predefined types *)
Lemma capv32 z : 0 <= rval 16 z < 32768 -> valid F32 z = true.
Proof. unfold rval. change (IZR (2 ^ 16)) with 65536. intros (A & B). apply valid32. split; [assert (0 <= z)%Z by (apply le_IZR; lra); lia|apply lt_IZR; lra]. Qed.
Lemma capv64 z : 0 <= rval 32 z < 2147483648 -> valid F64 z = true.
Proof. unfold rval. change (IZR (2 ^ 32)) with 4294967296. intros (A & B). apply valid64. split; [assert (0 <= z)%Z by (apply le_IZR; lra); lia|apply lt_IZR; lra]. Qed.
Lemma capp32 x : x < 32768 -> x * IZR (2 ^ 16) <= IZR (hi 32 true) \/ IZR (hi 32 true) < x * IZR (2 ^ 16) < IZR (hi 32 true) + 1.
Proof. change (IZR (2 ^ 16)) with 65536. change (hi 32 true) with 2147483647%Z. intros. lra. Qed.
Lemma capp64 x : x < 2147483648 -> x * IZR (2 ^ 32) <= IZR (hi 64 true) \/ IZR (hi 64 true) < x * IZR (2 ^ 32) < IZR (hi 64 true) + 1.
Proof. change (IZR (2 ^ 32)) with 4294967296. change (hi 64 true) with 9223372036854775807%Z. intros. lra. Qed.
Lemma rv16_max e : valid F32 e = true -> rval 16 e * ulp 16 <= 1.
Proof. intros V. apply valid32 in V. unfold rval, ulp. change (IZR (2 ^ 16)) with 65536. assert (IZR e <= 2147483648) by (apply IZR_le; lia). lra. Qed.
Lemma rv32_max e : valid F64 e = true -> rval 32 e * ulp 32 <= 1.
Proof. intros V. apply valid64 in V. unfold rval, ulp. change (IZR (2 ^ 32)) with 4294967296. assert (IZR e <= 9223372036854775808) by (apply IZR_le; lia). lra. Qed.
Lemma rv0 f e : (0 <= f)%Z -> 0 <= rval f e -> (0 <= e)%Z.
Proof. intros F H. pose proof (pow2_gt0 f F) as P. apply le_IZR. unfold rval in H. apply (Rmult_le_compat_r (IZR (2 ^ f))) in H; [|lra]. unfold Rdiv in H. rewrite Rmult_assoc, Rinv_l in H by lra. lra. Qed.

Theorem pow32_ge1 b e : valid F32 b = true -> valid F32 e = true -> 0 <= rval 16 e -> 1 <= rval 16 b <= 32760 -> Rpower (rval 16 b) (rval 16 e) <= 32760 ->
  exists r, fx_pow F32 b e = Ok r /\ valid F32 r = true /\
  (0.8156 * (1 - rval 16 e * ulp 16) - ulp 16) * Rpower (rval 16 b) (rval 16 e) - ulp 16 <= rval 16 r <= 1.00013 * Rpower (rval 16 b) (rval 16 e).
Proof.
  intros Vb Ve E0 (B1 & B2) HP. assert (E : exp (8 * ulp 16) <= 1.00013) by (unfold ulp; change (IZR (2 ^ 16)) with 65536; interval with (i_prec 60)).
  assert (E2 : 0.8156 <= 0.8158 * exp (- (8 * ulp 16 + ulp 16))) by (unfold ulp; change (IZR (2 ^ 16)) with 65536; interval with (i_prec 60)).
  pose proof (exp_pos (8 * ulp 16)) as EP0. pose proof (exp_pos (rval 16 e * ln (rval 16 b))) as PP. fold (Rpower (rval 16 b) (rval 16 e)) in PP.
  assert (U16 : ulp 16 = / 65536) by reflexivity. assert (E3 : 0 <= exp (8 * ulp 16)) by lra.
  destruct (pow_ge1_real F32 s32 (8 * ulp 16) 0.8158 32768 ltac:(rewrite U16; lra) ltac:(lra) capv32 capp32 log32_thm eq_refl exp32_acc b e Vb Ve
    (rv0 16 e ltac:(lia) E0) B1 (rv16_max e Ve)) as (r & ER & VR & R1 & R2).
  - cbn [cf F32]. set (x := rval 16 b) in *. apply Rle_lt_trans with (32760 * 1.00013); [apply Rmult_le_compat; lra|lra].
  - cbn [cf F32]. rewrite U16 at 2. set (x := Rpower _ _) in *. assert (x * exp (8 * ulp 16) <= 32760 * 1.00013) by (apply Rmult_le_compat; lra). lra.
  - exists r. split; [exact ER|]. split; [exact VR|]. cbn [cf F32] in R1, R2. set (x := Rpower _ _) in *. pose proof (rv16_max e Ve) as EM. split.
    + eapply Rle_trans; [|exact R2]. apply Rplus_le_compat_r. apply Rmult_le_compat_r; [lra|]. apply Rplus_le_compat_r. apply Rmult_le_compat_r; lra.
    + eapply Rle_trans; [exact R1|]. rewrite Rmult_comm. apply Rmult_le_compat_r; lra.
Qed.
Theorem pow64_ge1 b e : valid F64 b = true -> valid F64 e = true -> 0 <= rval 32 e -> 1 <= rval 32 b <= 2147483600 -> Rpower (rval 32 b) (rval 32 e) <= 2147483600 ->
  exists r, fx_pow F64 b e = Ok r /\ valid F64 r = true /\
  (0.8158 * (1 - rval 32 e * ulp 32) - ulp 32) * Rpower (rval 32 b) (rval 32 e) - ulp 32 <= rval 32 r <= (1 + 16 * ulp 32) * Rpower (rval 32 b) (rval 32 e).
Proof.
  intros Vb Ve E0 (B1 & B2) HP. assert (E : exp (15 * ulp 32) <= 1 + 16 * ulp 32) by (unfold ulp; change (IZR (2 ^ 32)) with 4294967296; interval with (i_prec 90)).
  assert (E2 : 0.8158 <= 0.8159 * exp (- (15 * ulp 32 + ulp 32))) by (unfold ulp; change (IZR (2 ^ 32)) with 4294967296; interval with (i_prec 60)).
  pose proof (exp_pos (15 * ulp 32)) as EP0. pose proof (exp_pos (rval 32 e * ln (rval 32 b))) as PP. fold (Rpower (rval 32 b) (rval 32 e)) in PP.
  assert (U32 : ulp 32 = / 4294967296) by reflexivity. assert (E3 : 0 <= exp (15 * ulp 32)) by lra.
  destruct (pow_ge1_real F64 s64 (15 * ulp 32) 0.8159 2147483648 ltac:(rewrite U32; lra) ltac:(lra) capv64 capp64 log64_thm eq_refl exp64_acc b e Vb Ve
    (rv0 32 e ltac:(lia) E0) B1 (rv32_max e Ve)) as (r & ER & VR & R1 & R2).
  - cbn [cf F64]. set (x := rval 32 b) in *. apply Rle_lt_trans with (2147483600 * (1 + 16 * ulp 32)); [apply Rmult_le_compat; lra|rewrite U32; lra].
  - cbn [cf F64]. set (x := Rpower _ _) in *. assert (x * exp (15 * ulp 32) <= 2147483600 * (1 + 16 * ulp 32)) by (apply Rmult_le_compat; lra). rewrite U32 in *. lra.
  - exists r. split; [exact ER|]. split; [exact VR|]. cbn [cf F64] in R1, R2. set (x := Rpower _ _) in *. pose proof (rv32_max e Ve) as EM. split.
    + eapply Rle_trans; [|exact R2]. apply Rplus_le_compat_r. apply Rmult_le_compat_r; [lra|]. apply Rplus_le_compat_r. apply Rmult_le_compat_r; lra.
    + eapply Rle_trans; [exact R1|]. rewrite Rmult_comm. apply Rmult_le_compat_r; lra.
Qed.
Theorem pow32_le1 b e : valid F32 b = true -> valid F32 e = true -> 0 <= rval 16 e -> 1 <= 32760 * rval 16 b -> rval 16 b <= 1 ->
  exists r, fx_pow F32 b e = Ok r /\ valid F32 r = true /\
  0.9998 * Rpower (rval 16 b) (rval 16 e) - (2 + 1.226 * rval 16 e) * ulp 16 <= rval 16 r <=
  1.2262 * Rpower (rval 16 b) (rval 16 e) + 1.226 * rval 16 e * ulp 16.
Proof.
  intros Vb Ve E0 B1 B2. assert (U16 : ulp 16 = / 65536) by reflexivity.
  assert (E : 1.226 * exp (8 * ulp 16) <= 1.2262) by (rewrite U16; interval with (i_prec 60)).
  assert (E2 : 0.9998 <= exp (- (8 * ulp 16 + ulp 16))) by (rewrite U16; interval with (i_prec 60)).
  assert (E3 : exp (8 * ulp 16 + ulp 16) < 1.0002) by (rewrite U16; interval with (i_prec 60)).
  pose proof (exp_pos (rval 16 e * ln (rval 16 b))) as PP. fold (Rpower (rval 16 b) (rval 16 e)) in PP.
  destruct (pow_le1_real F32 s32 (8 * ulp 16) 0.8158 32768 ltac:(rewrite U16; lra) capv32 capp32 log32_thm eq_refl exp32_acc b e Vb Ve
    (rv0 16 e ltac:(lia) E0) ltac:(cbn [cf F32]; lra) (rv16_max e Ve) ltac:(cbn [cf F32]; lra)) as (r & ER & VR & R1 & R2).
  exists r. split; [exact ER|]. split; [exact VR|]. cbn [cf F32] in R1, R2. set (x := Rpower _ _) in *. split.
  - eapply Rle_trans; [|exact R2]. apply Rplus_le_compat_r. apply Rmult_le_compat_r; lra.
  - eapply Rle_trans; [exact R1|]. apply Rplus_le_compat_r. apply Rmult_le_compat_r; lra.
Qed.
Theorem pow64_le1 b e : valid F64 b = true -> valid F64 e = true -> 0 <= rval 32 e -> 1 <= 2147483600 * rval 32 b -> rval 32 b <= 1 ->
  exists r, fx_pow F64 b e = Ok r /\ valid F64 r = true /\
  (1 - 17 * ulp 32) * Rpower (rval 32 b) (rval 32 e) - (2 + 1.226 * rval 32 e) * ulp 32 <= rval 32 r <=
  1.2261 * Rpower (rval 32 b) (rval 32 e) + 1.226 * rval 32 e * ulp 32.
Proof.
  intros Vb Ve E0 B1 B2. assert (U32 : ulp 32 = / 4294967296) by reflexivity.
  assert (E : 1.226 * exp (15 * ulp 32) <= 1.2261) by (rewrite U32; interval with (i_prec 60)).
  assert (E2 : 1 - 17 * ulp 32 <= exp (- (15 * ulp 32 + ulp 32))) by (rewrite U32; interval with (i_prec 90)).
  assert (E3 : exp (15 * ulp 32 + ulp 32) < 1 + 17 * ulp 32) by (rewrite U32; interval with (i_prec 90)).
  pose proof (exp_pos (rval 32 e * ln (rval 32 b))) as PP. fold (Rpower (rval 32 b) (rval 32 e)) in PP.
  destruct (pow_le1_real F64 s64 (15 * ulp 32) 0.8159 2147483648 ltac:(rewrite U32; lra) capv64 capp64 log64_thm eq_refl exp64_acc b e Vb Ve
    (rv0 32 e ltac:(lia) E0) ltac:(cbn [cf F64]; lra) (rv32_max e Ve) ltac:(cbn [cf F64]; rewrite U32 in *; lra)) as (r & ER & VR & R1 & R2).
  exists r. split; [exact ER|]. split; [exact VR|]. cbn [cf F64] in R1, R2. set (x := Rpower _ _) in *. split.
  - eapply Rle_trans; [|exact R2]. apply Rplus_le_compat_r. apply Rmult_le_compat_r; lra.
  - eapply Rle_trans; [exact R1|]. apply Rplus_le_compat_r. apply Rmult_le_compat_r; lra.
Qed.

Theorem log_exp32 m : valid F32 m = true -> 0 <= rval 16 m -> exp (rval 16 m) < 32768 ->
  exists a l, fx_exp F32 m = Ok a /\ fx_log F32 a = Ok l /\ valid F32 l = true /\ -0.2038 <= rval 16 l - rval 16 m <= 8 * ulp 16.
Proof.
  intros V X0 XC. assert (U16 : ulp 16 = / 65536) by reflexivity.
  assert (E : -0.2038 <= ln (0.8158 - ulp 16) - 8 * ulp 16) by (rewrite U16; interval with (i_prec 60)).
  destruct (log_exp_real F32 s32 (8 * ulp 16) 0.8158 32768 log32_thm exp32_acc m V X0 XC ltac:(cbn [cf F32]; rewrite U16; lra))
    as (a & l & A & B & C & D). exists a, l. cbn [cf F32] in D. repeat split; auto; lra.
Qed.
Theorem log_exp64 m : valid F64 m = true -> 0 <= rval 32 m -> exp (rval 32 m) < 2147483648 ->
  exists a l, fx_exp F64 m = Ok a /\ fx_log F64 a = Ok l /\ valid F64 l = true /\ -0.2035 <= rval 32 l - rval 32 m <= 15 * ulp 32.
Proof.
  intros V X0 XC. assert (U32 : ulp 32 = / 4294967296) by reflexivity.
  assert (E : -0.2035 <= ln (0.8159 - ulp 32) - 15 * ulp 32) by (rewrite U32; interval with (i_prec 60)).
  destruct (log_exp_real F64 s64 (15 * ulp 32) 0.8159 2147483648 log64_thm exp64_acc m V X0 XC ltac:(cbn [cf F64]; rewrite U32; lra))
    as (a & l & A & B & C & D). exists a, l. cbn [cf F64] in D. repeat split; auto; lra.
Qed.
Theorem exp_log32 b : valid F32 b = true -> rval 16 b <= 32760 -> 1 <= 32760 * rval 16 b ->
  exists l r, fx_log F32 b = Ok l /\ fx_exp F32 l = Ok r /\ valid F32 r = true /\
  (1 <= rval 16 b -> 0.8156 * rval 16 b - ulp 16 <= rval 16 r <= 1.00013 * rval 16 b) /\
  (rval 16 b <= 1 -> 0.9998 * rval 16 b - ulp 16 <= rval 16 r <= 1.2262 * rval 16 b).
Proof.
  intros V B1 B2. assert (U16 : ulp 16 = / 65536) by reflexivity.
  assert (E : exp (8 * ulp 16) <= 1.00013) by (rewrite U16; interval with (i_prec 60)).
  assert (E' : 1.226 * exp (8 * ulp 16) <= 1.2262) by (rewrite U16; interval with (i_prec 60)).
  assert (E2 : 0.9998 <= exp (- (8 * ulp 16))) by (rewrite U16; interval with (i_prec 60)).
  assert (E2' : 0.8156 <= 0.8158 * exp (- (8 * ulp 16))) by (rewrite U16; interval with (i_prec 60)).
  pose proof (exp_log_ge1_real F32 s32 (8 * ulp 16) 0.8158 32768 ltac:(lra) capv32 capp32 log32_thm eq_refl exp32_acc b V) as GE.
  pose proof (exp_log_le1_real F32 s32 (8 * ulp 16) 0.8158 32768 capv32 capp32 log32_thm eq_refl exp32_acc b V) as LE.
  cbn [cf F32] in GE, LE. set (x := rval 16 b) in *.
  destruct (Rle_lt_dec 1 x) as [G|L].
  - destruct GE as (l & r & A & B & C & D1 & D2); [auto|apply Rle_lt_trans with (32760 * 1.00013); [apply Rmult_le_compat; try lra; left; apply exp_pos|lra]|].
    exists l, r. split; [auto|]. split; [auto|]. split; [auto|].
    assert (F1 : 0.8156 * x <= 0.8158 * exp (- (8 * ulp 16)) * x) by (apply Rmult_le_compat_r; lra).
    assert (F2 : exp (8 * ulp 16) * x <= 1.00013 * x) by (apply Rmult_le_compat_r; lra).
    split; intros; [lra|]. assert (x = 1) by lra. rewrite H0 in *.
    assert (BE : b = (2 ^ 16)%Z). { apply eq_IZR. unfold x, rval in H0. change (2 ^ 16)%Z with 65536%Z in *. lra. }
    subst b. replace r with (2 ^ 16)%Z in *; [change (rval 16 (2 ^ 16)) with x; lra|].
    assert (LZ : l = 0%Z) by (vm_compute in A; congruence). subst l. vm_compute in B. injection B as <-. reflexivity.
  - destruct LE as (l & r & A & B & C & D1 & D2); [lra|lra|].
    exists l, r. split; [auto|]. split; [auto|]. split; [auto|].
    assert (F1 : 0.9998 * x <= exp (- (8 * ulp 16)) * x) by (apply Rmult_le_compat_r; lra).
    assert (F2 : 1.226 * exp (8 * ulp 16) * x <= 1.2262 * x) by (apply Rmult_le_compat_r; lra).
    split; intros; lra.
Qed.
Theorem exp_log64 b : valid F64 b = true -> rval 32 b <= 2147483600 -> 1 <= 2147483600 * rval 32 b ->
  exists l r, fx_log F64 b = Ok l /\ fx_exp F64 l = Ok r /\ valid F64 r = true /\
  (1 <= rval 32 b -> 0.8158 * rval 32 b - ulp 32 <= rval 32 r <= (1 + 16 * ulp 32) * rval 32 b) /\
  (rval 32 b <= 1 -> (1 - 16 * ulp 32) * rval 32 b - ulp 32 <= rval 32 r <= 1.2261 * rval 32 b).
Proof.
  intros V B1 B2. assert (U32 : ulp 32 = / 4294967296) by reflexivity.
  assert (E : exp (15 * ulp 32) <= 1 + 16 * ulp 32) by (rewrite U32; interval with (i_prec 90)).
  assert (E' : 1.226 * exp (15 * ulp 32) <= 1.2261) by (rewrite U32; interval with (i_prec 60)).
  assert (E2 : 1 - 16 * ulp 32 <= exp (- (15 * ulp 32))) by (rewrite U32; interval with (i_prec 90)).
  assert (E2' : 0.8158 <= 0.8159 * exp (- (15 * ulp 32))) by (rewrite U32; interval with (i_prec 60)).
  pose proof (exp_log_ge1_real F64 s64 (15 * ulp 32) 0.8159 2147483648 ltac:(lra) capv64 capp64 log64_thm eq_refl exp64_acc b V) as GE.
  pose proof (exp_log_le1_real F64 s64 (15 * ulp 32) 0.8159 2147483648 capv64 capp64 log64_thm eq_refl exp64_acc b V) as LE.
  cbn [cf F64] in GE, LE. set (x := rval 32 b) in *.
  destruct (Rle_lt_dec 1 x) as [G|L].
  - destruct GE as (l & r & A & B & C & D1 & D2); [auto|apply Rle_lt_trans with (2147483600 * (1 + 16 * ulp 32)); [apply Rmult_le_compat; try lra; left; apply exp_pos|rewrite U32; lra]|].
    exists l, r. split; [auto|]. split; [auto|]. split; [auto|].
    assert (F1 : 0.8158 * x <= 0.8159 * exp (- (15 * ulp 32)) * x) by (apply Rmult_le_compat_r; lra).
    assert (F2 : exp (15 * ulp 32) * x <= (1 + 16 * ulp 32) * x) by (apply Rmult_le_compat_r; lra).
    split; intros; [lra|]. assert (x = 1) by lra. rewrite H0 in *.
    assert (BE : b = (2 ^ 32)%Z). { apply eq_IZR. unfold x, rval in H0. change (2 ^ 32)%Z with 4294967296%Z in *. lra. }
    subst b. replace r with (2 ^ 32)%Z in *; [change (rval 32 (2 ^ 32)) with x; rewrite U32; lra|].
    assert (LZ : l = 0%Z) by (vm_compute in A; congruence). subst l. vm_compute in B. injection B as <-. reflexivity.
  - destruct LE as (l & r & A & B & C & D1 & D2); [lra|rewrite U32 in *; lra|].
    exists l, r. split; [auto|]. split; [auto|]. split; [auto|].
    assert (F1 : (1 - 16 * ulp 32) * x <= exp (- (15 * ulp 32)) * x) by (apply Rmult_le_compat_r; lra).
    assert (F2 : 1.226 * exp (15 * ulp 32) * x <= 1.2261 * x) by (apply Rmult_le_compat_r; lra).
    split; intros; lra.
Qed.
