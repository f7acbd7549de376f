(** exp is increasing on each side of zero. *)
From Coq Require Import ZArith Reals Lra Lia Bool List.
From Interval Require Import Tactic.
From Verif Require Import Base Fixed Math Spec SpecReal BaseLemmas FixedLemmas MathProofs PowProofs RealLemmas StdProofs SinPoly SinThms RealThms ExpProofs ExpDef ExpThms.
Open Scope Z_scope.

Section MONO.
Variables M A B C D E F PM N : Z.
Variable pw : Z -> Z.
Hypothesis HM : 0 < M.
Hypothesis CA : 0 <= A. Hypothesis CB : 0 <= B. Hypothesis CC : 0 <= C. Hypothesis CD : 0 <= D. Hypothesis CE : 0 <= E. Hypothesis CF : 0 <= F.
Let poly := exp_poly_z M A B C D E F.
Hypothesis PMAX : poly (M - 1) <= PM.
Hypothesis P0 : 0 <= pw 0.
Hypothesis PN : 0 <= N.
Hypothesis STEP : forall n, 0 <= n < N -> pw n <= pw (n + 1) /\ pw n * PM <= pw (n + 1) * F.
Hypothesis FPM : F <= PM.

Lemma fm_mono x y u v : 0 <= x <= y -> 0 <= u <= v -> 0 <= fm M x u <= fm M y v.
Proof using HM. intros X U. unfold fm. split; [apply Z.div_pos; nia|]. apply Z.div_le_mono; [lia|]. apply Z.mul_le_mono_nonneg; lia. Qed.
Lemma poly_mono x y : 0 <= x <= y -> F <= poly x <= poly y.
Proof using HM CA CB CC CD CE CF.
  intros X. unfold poly, exp_poly_z.
  pose proof (fm_mono x y A A X ltac:(lia)) as H1.
  pose proof (fm_mono x y (B + fm M x A) (B + fm M y A) X ltac:(lia)) as H2.
  pose proof (fm_mono x y _ _ X (conj (Z.add_nonneg_nonneg _ _ CC (proj1 H2)) (Zplus_le_compat_l _ _ C (proj2 H2)))) as H3.
  pose proof (fm_mono x y _ _ X (conj (Z.add_nonneg_nonneg _ _ CD (proj1 H3)) (Zplus_le_compat_l _ _ D (proj2 H3)))) as H4.
  pose proof (fm_mono x y _ _ X (conj (Z.add_nonneg_nonneg _ _ CE (proj1 H4)) (Zplus_le_compat_l _ _ E (proj2 H4)))) as H5.
  lia.
Qed.
Lemma pw_chain n k : 0 <= n -> 0 < k -> n + k <= N -> 0 <= pw n -> pw n <= pw (n + k) /\ pw n * PM <= pw (n + k) * F.
Proof using STEP CF.
  intros Hn Hk. revert n Hn. pattern k. apply Z.lt_ind with (n := 0); auto.
  - intros x y ->. reflexivity.
  - intros n Hn L _. apply (STEP n). lia.
  - intros j J IH n Hn L P. destruct (IH n Hn ltac:(lia) P) as (I1 & I2). destruct (STEP (n + j) ltac:(lia)) as (S1 & S2).
    replace (n + Z.succ j) with (n + j + 1) by lia. split; [lia|]. apply Z.le_trans with (pw (n + j) * F); [exact I2|]. apply Z.mul_le_mono_nonneg_r; lia.
Qed.
Lemma pw_nonneg n : 0 <= n <= N -> 0 <= pw n.
Proof using STEP P0 CF. intros Hn. destruct (Z.eq_dec n 0) as [->|H]; [auto|]. destruct (pw_chain 0 n) as (A1 & _); try lia. replace (0 + n) with n in A1 by lia. lia. Qed.
Definition eG (m : Z) : Z := fm M (pw (m / M)) (poly (m mod M)).
Lemma eG_mono m m' : 0 <= m <= m' -> m' / M <= N -> 0 <= eG m <= eG m'.
Proof using HM CA CB CC CD CE CF PMAX P0 STEP.
  intros H L. unfold eG.
  assert (D0 : 0 <= m / M) by (apply Z.div_pos; lia). assert (D1 : m / M <= m' / M) by (apply Z.div_le_mono; lia).
  pose proof (Z.mod_pos_bound m M HM) as R. pose proof (Z.mod_pos_bound m' M HM) as R'.
  pose proof (Z.div_mod m M ltac:(lia)) as Q. pose proof (Z.div_mod m' M ltac:(lia)) as Q'.
  pose proof (pw_nonneg (m / M) ltac:(lia)) as PP. pose proof (pw_nonneg (m' / M) ltac:(lia)) as PP'.
  destruct (Z.eq_dec (m / M) (m' / M)) as [EQ|NE].
  - rewrite EQ in *. pose proof (poly_mono (m mod M) (m' mod M) ltac:(lia)). apply fm_mono; lia.
  - destruct (pw_chain (m / M) (m' / M - m / M)) as (C1 & C2); try lia. replace (m / M + (m' / M - m / M)) with (m' / M) in * by lia.
    pose proof (poly_mono (m mod M) (M - 1) ltac:(lia)) as B1. pose proof (poly_mono 0 (m' mod M) ltac:(lia)) as B2.
    pose proof (poly_mono (m' mod M) (m' mod M) ltac:(lia)) as B3.
    unfold fm. split; [apply Z.div_pos; nia|]. apply Z.div_le_mono; [lia|].
    apply Z.le_trans with (pw (m / M) * PM); [apply Z.mul_le_mono_nonneg_l; lia|].
    apply Z.le_trans with (pw (m' / M) * F); [exact C2|]. apply Z.mul_le_mono_nonneg_l; lia.
Qed.
End MONO.

Definition pw32 (n : Z) : Z := match fx_pow_int F32 int32 178145 n with Ok p => p | _ => 0 end.
Definition pw64 (n : Z) : Z := match fx_pow_int F64 int64 11674931554 n with Ok p => p | _ => 0 end.
Definition G32 : Z -> Z := eG 65536 911 2280 11167 32708 32770 65535 pw32.
Definition G64 : Z -> Z := eG 4294967296 59716057 149467315 731870904 2143601421 2147654280 4294962444 pw64.
Definition upto (n : nat) (f : Z -> bool) : bool := forallb (fun k => f (Z.of_nat k)) (seq 0 n).
Lemma upto_ok n f : upto n f = true -> forall k, 0 <= k < Z.of_nat n -> f k = true.
Proof. intros H k Hk. unfold upto in H. rewrite forallb_forall in H. specialize (H (Z.to_nat k)). rewrite Z2Nat.id in H by lia. apply H. apply in_seq. lia. Qed.
Lemma st32 : upto 10 (fun n => (pw32 n <=? pw32 (n + 1)) && (pw32 n * 145371 <=? pw32 (n + 1) * 65535)) = true.
Proof. vm_compute. reflexivity. Qed.
Lemma st64 : upto 21 (fun n => (pw64 n <=? pw64 (n + 1)) && (pw64 n * 9527272421 <=? pw64 (n + 1) * 4294962444)) = true.
Proof. vm_compute. reflexivity. Qed.
Lemma G32_mono m m' : 0 <= m <= m' -> m' <= 681391 -> 0 <= G32 m <= G32 m'.
Proof.
  intros H L. assert (S : forall n, 0 <= n < 10 -> pw32 n <= pw32 (n + 1) /\ pw32 n * 145371 <= pw32 (n + 1) * 65535).
  { intros n Hn. pose proof (upto_ok _ _ st32 n ltac:(lia)) as S. apply andb_true_iff in S. rewrite !Z.leb_le in S. exact S. }
  assert (P : exp_poly_z 65536 911 2280 11167 32708 32770 65535 (65536 - 1) <= 145371) by (apply Z.leb_le; vm_compute; reflexivity).
  assert (P0 : 0 <= pw32 0) by (apply Z.leb_le; vm_compute; reflexivity).
  apply (eG_mono 65536 911 2280 11167 32708 32770 65535 145371 10 pw32 ltac:(lia) ltac:(lia) ltac:(lia) ltac:(lia) ltac:(lia) ltac:(lia) ltac:(lia) P P0 S); auto.
  apply Z.lt_succ_r. apply Z.div_lt_upper_bound; lia.
Qed.
Lemma G64_mono m m' : 0 <= m <= m' -> m' <= 92288378626 -> 0 <= G64 m <= G64 m'.
Proof.
  intros H L. assert (S : forall n, 0 <= n < 21 -> pw64 n <= pw64 (n + 1) /\ pw64 n * 9527272421 <= pw64 (n + 1) * 4294962444).
  { intros n Hn. pose proof (upto_ok _ _ st64 n ltac:(lia)) as S. apply andb_true_iff in S. rewrite !Z.leb_le in S. exact S. }
  assert (P : exp_poly_z 4294967296 59716057 149467315 731870904 2143601421 2147654280 4294962444 (4294967296 - 1) <= 9527272421) by (apply Z.leb_le; vm_compute; reflexivity).
  assert (P0 : 0 <= pw64 0) by (apply Z.leb_le; vm_compute; reflexivity).
  apply (eG_mono 4294967296 59716057 149467315 731870904 2143601421 2147654280 4294962444 9527272421 21 pw64 ltac:(lia) ltac:(lia) ltac:(lia) ltac:(lia) ltac:(lia) ltac:(lia) ltac:(lia) P P0 S); auto.
  apply Z.lt_succ_r. apply Z.div_lt_upper_bound; lia.
Qed.
(** the series is the integer function, below ln 2^15 and ln 2^31 *)
Lemma G32_eq m : 0 <= m <= 681391 -> exp_expand F32 m = Ok (G32 m) /\ 65535 <= G32 m < 2147483648.
Proof.
  intros H. assert (V : valid F32 m = true) by (apply valid32; lia).
  destruct (exp_expand32 m V ltac:(lia)) as (p & Ep & Vp & E).
  assert (GL : 65535 <= G32 m < 2147483648).
  { pose proof (G32_mono 0 m ltac:(lia) ltac:(lia)) as A1. pose proof (G32_mono m 681391 ltac:(lia) ltac:(lia)) as A2.
    assert (E0 : G32 0 = 65535) by (vm_compute; reflexivity). assert (E1 : G32 681391 < 2147483648) by (vm_compute; reflexivity). lia. }
  split; [|exact GL]. rewrite E. f_equal.
  assert (EG : fm (2 ^ 16) p (exp_poly_z (2 ^ 16) 911 2280 11167 32708 32770 65535 (m mod 2 ^ 16)) = G32 m).
  { unfold G32, eG, pw32. change 65536 with (2 ^ 16). rewrite Ep. reflexivity. }
  rewrite EG. apply wrap_id; [reflexivity|]. apply valid32. lia.
Qed.
Lemma G64_eq m : 0 <= m <= 92288378626 -> exp_expand F64 m = Ok (G64 m) /\ 4294962444 <= G64 m < 9223372036854775808.
Proof.
  intros H. assert (V : valid F64 m = true) by (apply valid64; lia).
  destruct (exp_expand64 m V ltac:(lia)) as (p & Ep & Vp & E).
  assert (GL : 4294962444 <= G64 m < 9223372036854775808).
  { pose proof (G64_mono 0 m ltac:(lia) ltac:(lia)) as A1. pose proof (G64_mono m 92288378626 ltac:(lia) ltac:(lia)) as A2.
    assert (E0 : G64 0 = 4294962444) by (vm_compute; reflexivity). assert (E1 : G64 92288378626 < 9223372036854775808) by (vm_compute; reflexivity). lia. }
  split; [|exact GL]. rewrite E. f_equal.
  assert (EG : fm (2 ^ 32) p (exp_poly_z (2 ^ 32) 59716057 149467315 731870904 2143601421 2147654280 4294962444 (m mod 2 ^ 32)) = G64 m).
  { unfold G64, eG, pw64. change 4294967296 with (2 ^ 32). rewrite Ep. reflexivity. }
  rewrite EG. apply wrap_id; [reflexivity|]. apply valid64. lia.
Qed.
Lemma exp32_shape m : Z.abs m <= 681391 -> fx_exp F32 m = Ok (if m =? 0 then 65536 else if m <? 0 then Z.quot 4294967296 (G32 (- m)) else G32 m).
Proof.
  intros H. assert (V : valid F32 m = true) by (apply valid32; lia). destruct (Z.eqb_spec m 0) as [->|N]; [apply (exp0 F32 s32)|].
  destruct (Z.ltb_spec m 0) as [L|L].
  - destruct (G32_eq (- m) ltac:(lia)) as (E & B). rewrite <- (Z.opp_involutive m) at 1.
    rewrite (exp_neg_eq F32 (- m) (G32 (- m)) s32) by (try rewrite Z.opp_involutive; auto; try (apply valid32); lia).
    destruct (Z.eqb_spec (G32 (- m)) 0) as [Z0|_]; [lia|]. change (2 ^ cf F32 * 2 ^ cf F32) with 4294967296. f_equal.
    pose proof (Z.quot_pos 4294967296 (G32 (- m)) ltac:(lia) ltac:(lia)).
    assert (Z.quot 4294967296 (G32 (- m)) < 65538) by (apply Z.quot_lt_upper_bound; lia).
    apply wrap_id; [reflexivity|]. apply valid32. lia.
  - rewrite (exp_pos_eq F32 m s32 V ltac:(lia)). apply G32_eq. lia.
Qed.
Lemma exp64_shape m : Z.abs m <= 92288378626 -> fx_exp F64 m = Ok (if m =? 0 then 4294967296 else if m <? 0 then Z.quot 18446744073709551616 (G64 (- m)) else G64 m).
Proof.
  intros H. assert (V : valid F64 m = true) by (apply valid64; lia). destruct (Z.eqb_spec m 0) as [->|N]; [apply (exp0 F64 s64)|].
  destruct (Z.ltb_spec m 0) as [L|L].
  - destruct (G64_eq (- m) ltac:(lia)) as (E & B). rewrite <- (Z.opp_involutive m) at 1.
    rewrite (exp_neg_eq F64 (- m) (G64 (- m)) s64) by (try rewrite Z.opp_involutive; auto; try (apply valid64); lia).
    destruct (Z.eqb_spec (G64 (- m)) 0) as [Z0|_]; [lia|]. change (2 ^ cf F64 * 2 ^ cf F64) with 18446744073709551616. f_equal.
    pose proof (Z.quot_pos 18446744073709551616 (G64 (- m)) ltac:(lia) ltac:(lia)).
    assert (Z.quot 18446744073709551616 (G64 (- m)) < 4294972150) by (apply Z.quot_lt_upper_bound; lia).
    apply wrap_id; [reflexivity|]. apply valid64. lia.
  - rewrite (exp_pos_eq F64 m s64 V ltac:(lia)). apply G64_eq. lia.
Qed.
Lemma quot_anti a u v : 0 <= a -> 0 < u <= v -> Z.quot a v <= Z.quot a u.
Proof. intros A U. apply Z.quot_le_compat_l; lia. Qed.
Lemma exp_mono32 m m' a b : m <= m' -> Z.abs m <= 681391 -> Z.abs m' <= 681391 -> fx_exp F32 m = Ok a -> fx_exp F32 m' = Ok b ->
  a <= b + 2 /\ (0 < m * m' -> a <= b).
Proof.
  intros L A1 A2 E1 E2. rewrite exp32_shape in E1 by auto. rewrite exp32_shape in E2 by auto. injection E1 as <-. injection E2 as <-.
  assert (LO : forall k, 0 <= k <= 681391 -> 65535 <= G32 k) by (intros; apply G32_eq; auto).
  assert (HI : forall k, 0 <= k <= 681391 -> 0 <= Z.quot 4294967296 (G32 k) <= 65537).
  { intros k Hk. pose proof (LO k Hk). split; [apply Z.quot_pos; lia|]. apply Z.lt_succ_r. apply Z.quot_lt_upper_bound; lia. }
  assert (MON : m < 0 -> m' < 0 -> Z.quot 4294967296 (G32 (- m)) <= Z.quot 4294967296 (G32 (- m'))).
  { intros. pose proof (LO (- m') ltac:(lia)). pose proof (G32_mono (- m') (- m) ltac:(lia) ltac:(lia)). apply quot_anti; lia. }
  assert (MOP : 0 < m -> 0 < m' -> G32 m <= G32 m') by (intros; apply G32_mono; lia).
  destruct (Z.eqb_spec m 0) as [->|N]; destruct (Z.eqb_spec m' 0) as [->|N'].
  - lia.
  - pose proof (LO m' ltac:(lia)). destruct (Z.ltb_spec m' 0); lia.
  - pose proof (HI (- m) ltac:(lia)). destruct (Z.ltb_spec m 0); lia.
  - destruct (Z.ltb_spec m 0); destruct (Z.ltb_spec m' 0).
    + pose proof (MON ltac:(lia) ltac:(lia)). lia.
    + pose proof (HI (- m) ltac:(lia)). pose proof (LO m' ltac:(lia)). split; [lia|]. intros X. exfalso. nia.
    + lia.
    + pose proof (MOP ltac:(lia) ltac:(lia)). lia.
Qed.
Lemma exp_mono64 m m' a b : m <= m' -> Z.abs m <= 92288378626 -> Z.abs m' <= 92288378626 -> fx_exp F64 m = Ok a -> fx_exp F64 m' = Ok b ->
  a <= b + 9705 /\ (0 < m * m' -> a <= b).
Proof.
  intros L A1 A2 E1 E2. rewrite exp64_shape in E1 by auto. rewrite exp64_shape in E2 by auto. injection E1 as <-. injection E2 as <-.
  assert (LO : forall k, 0 <= k <= 92288378626 -> 4294962444 <= G64 k) by (intros; apply G64_eq; auto).
  assert (HI : forall k, 0 <= k <= 92288378626 -> 0 <= Z.quot 18446744073709551616 (G64 k) <= 4294972149).
  { intros k Hk. pose proof (LO k Hk). split; [apply Z.quot_pos; lia|]. apply Z.lt_succ_r. apply Z.quot_lt_upper_bound; lia. }
  assert (MON : m < 0 -> m' < 0 -> Z.quot 18446744073709551616 (G64 (- m)) <= Z.quot 18446744073709551616 (G64 (- m'))).
  { intros. pose proof (LO (- m') ltac:(lia)). pose proof (G64_mono (- m') (- m) ltac:(lia) ltac:(lia)). apply quot_anti; lia. }
  assert (MOP : 0 < m -> 0 < m' -> G64 m <= G64 m') by (intros; apply G64_mono; lia).
  destruct (Z.eqb_spec m 0) as [->|N]; destruct (Z.eqb_spec m' 0) as [->|N'].
  - lia.
  - pose proof (LO m' ltac:(lia)). destruct (Z.ltb_spec m' 0); lia.
  - pose proof (HI (- m) ltac:(lia)). destruct (Z.ltb_spec m 0); lia.
  - destruct (Z.ltb_spec m 0); destruct (Z.ltb_spec m' 0).
    + pose proof (MON ltac:(lia) ltac:(lia)). lia.
    + pose proof (HI (- m) ltac:(lia)). pose proof (LO m' ltac:(lia)). split; [lia|]. intros X. exfalso. nia.
    + lia.
    + pose proof (MOP ltac:(lia) ltac:(lia)). lia.
Qed.
Open Scope R_scope.
Lemma exp_dom32 m : exp (Rabs (rval 16 m)) < 32768 -> (Z.abs m <= 681391)%Z.
Proof.
  intros H. destruct (Z.le_gt_cases (Z.abs m) 681391) as [L|L]; auto. exfalso. rewrite rval_abs in H.
  assert (X : 681392 / 65536 <= rval 16 (Z.abs m)).
  { unfold rval. change (IZR (2 ^ 16)) with 65536. assert (681392 <= IZR (Z.abs m)) by (apply IZR_le; lia). lra. }
  assert (Y : 32768 < exp (681392 / 65536)) by interval with (i_prec 80).
  destruct (Rle_lt_or_eq_dec _ _ X) as [X1|X1]; [apply exp_increasing in X1|rewrite <- X1 in H]; lra.
Qed.
Lemma exp_dom64 m : exp (Rabs (rval 32 m)) < 2147483648 -> (Z.abs m <= 92288378626)%Z.
Proof.
  intros H. destruct (Z.le_gt_cases (Z.abs m) 92288378626) as [L|L]; auto. exfalso. rewrite rval_abs in H.
  assert (X : 92288378627 / 4294967296 <= rval 32 (Z.abs m)).
  { unfold rval. change (IZR (2 ^ 32)) with 4294967296. assert (92288378627 <= IZR (Z.abs m)) by (apply IZR_le; lia). lra. }
  assert (Y : 2147483648 < exp (92288378627 / 4294967296)) by interval with (i_prec 120).
  destruct (Rle_lt_or_eq_dec _ _ X) as [X1|X1]; [apply exp_increasing in X1|rewrite <- X1 in H]; lra.
Qed.
Lemma exp_mono32_thm m m' : (m <= m')%Z -> exp (Rabs (rval 16 m)) < 32768 -> exp (Rabs (rval 16 m')) < 32768 ->
  exists a b, fx_exp F32 m = Ok a /\ fx_exp F32 m' = Ok b /\ (a <= b + 2)%Z /\ ((0 < m \/ m' < 0)%Z -> (a <= b)%Z).
Proof.
  intros L H1 H2. apply exp_dom32 in H1, H2. pose proof (exp32_shape m H1) as E1. pose proof (exp32_shape m' H2) as E2.
  do 2 eexists. split; [exact E1|]. split; [exact E2|]. destruct (exp_mono32 m m' _ _ L H1 H2 E1 E2) as (A & B). split; [exact A|]. intros D. apply B. nia.
Qed.
Lemma exp_mono64_thm m m' : (m <= m')%Z -> exp (Rabs (rval 32 m)) < 2147483648 -> exp (Rabs (rval 32 m')) < 2147483648 ->
  exists a b, fx_exp F64 m = Ok a /\ fx_exp F64 m' = Ok b /\ (a <= b + 9705)%Z /\ ((0 < m \/ m' < 0)%Z -> (a <= b)%Z).
Proof.
  intros L H1 H2. apply exp_dom64 in H1, H2. pose proof (exp64_shape m H1) as E1. pose proof (exp64_shape m' H2) as E2.
  do 2 eexists. split; [exact E1|]. split; [exact E2|]. destruct (exp_mono64 m m' _ _ L H1 H2 E1 E2) as (A & B). split; [exact A|]. intros D. apply B. nia.
Qed.
Lemma exp_mono_refuted : exists m m' a b c, valid F32 m = true /\ valid F32 m' = true /\ (m < 0 < m')%Z /\
  fx_exp F32 m = Ok a /\ fx_exp F32 0 = Ok b /\ fx_exp F32 m' = Ok c /\ (c < b < a)%Z.
Proof. exists (-1)%Z, 1%Z, 65537%Z, 65536%Z, 65535%Z. split; [reflexivity|]. split; [reflexivity|]. split; [lia|]. repeat (split; [vm_compute; reflexivity|]). lia. Qed.
(** exp of a number and of its negative *)
Lemma exp_inverse32 m a b : (0 < m <= 681391)%Z -> fx_exp F32 m = Ok a -> fx_exp F32 (- m) = Ok b ->
  (b * a <= 4294967296 < (b + 1) * a)%Z.
Proof.
  intros H E1 E2. rewrite exp32_shape in E1 by lia. rewrite exp32_shape in E2 by lia.
  replace (m =? 0)%Z with false in E1 by (symmetry; apply Z.eqb_neq; lia). replace (m <? 0)%Z with false in E1 by (symmetry; apply Z.ltb_ge; lia).
  replace (- m =? 0)%Z with false in E2 by (symmetry; apply Z.eqb_neq; lia). replace (- m <? 0)%Z with true in E2 by (symmetry; apply Z.ltb_lt; lia).
  rewrite Z.opp_involutive in E2. injection E1 as <-. injection E2 as <-. destruct (G32_eq m ltac:(lia)) as (_ & B).
  set (g := G32 m) in *. rewrite Z.quot_div_nonneg by lia. pose proof (Z.div_mod 4294967296 g ltac:(lia)). pose proof (Z.mod_pos_bound 4294967296 g ltac:(lia)). nia.
Qed.
Lemma exp_inverse64 m a b : (0 < m <= 92288378626)%Z -> fx_exp F64 m = Ok a -> fx_exp F64 (- m) = Ok b ->
  (b * a <= 18446744073709551616 < (b + 1) * a)%Z.
Proof.
  intros H E1 E2. rewrite exp64_shape in E1 by lia. rewrite exp64_shape in E2 by lia.
  replace (m =? 0)%Z with false in E1 by (symmetry; apply Z.eqb_neq; lia). replace (m <? 0)%Z with false in E1 by (symmetry; apply Z.ltb_ge; lia).
  replace (- m =? 0)%Z with false in E2 by (symmetry; apply Z.eqb_neq; lia). replace (- m <? 0)%Z with true in E2 by (symmetry; apply Z.ltb_lt; lia).
  rewrite Z.opp_involutive in E2. injection E1 as <-. injection E2 as <-. destruct (G64_eq m ltac:(lia)) as (_ & B).
  set (g := G64 m) in *. rewrite Z.quot_div_nonneg by lia. pose proof (Z.div_mod 18446744073709551616 g ltac:(lia)). pose proof (Z.mod_pos_bound 18446744073709551616 g ltac:(lia)). nia.
Qed.
Lemma exp_inverse32_thm m : (0 < m)%Z -> exp (rval 16 m) < 32768 ->
  exists a b, fx_exp F32 m = Ok a /\ fx_exp F32 (- m) = Ok b /\ rval 16 b * rval 16 a <= 1 < (rval 16 b + ulp 16) * rval 16 a.
Proof.
  intros P H. assert (R : 0 < rval 16 m) by (unfold rval; change (IZR (2 ^ 16)) with 65536; apply IZR_lt in P; lra).
  rewrite <- (Rabs_pos_eq (rval 16 m)) in H by lra. apply exp_dom32 in H. rewrite Z.abs_eq in H by lia.
  do 2 eexists. split; [apply exp32_shape; lia|]. split; [apply exp32_shape; lia|].
  destruct (exp_inverse32 m _ _ ltac:(lia) (exp32_shape m ltac:(lia)) (exp32_shape (- m) ltac:(lia))) as (I1 & I2).
  match goal with |- rval 16 ?b * rval 16 ?a <= 1 < _ => set (u := b) in *; set (v := a) in * end.
  apply IZR_le in I1. apply IZR_lt in I2. rewrite mult_IZR in I1, I2. rewrite plus_IZR in I2. unfold rval, ulp. change (IZR (2 ^ 16)) with 65536. split; lra.
Qed.
Lemma exp_inverse64_thm m : (0 < m)%Z -> exp (rval 32 m) < 2147483648 ->
  exists a b, fx_exp F64 m = Ok a /\ fx_exp F64 (- m) = Ok b /\ rval 32 b * rval 32 a <= 1 < (rval 32 b + ulp 32) * rval 32 a.
Proof.
  intros P H. assert (R : 0 < rval 32 m) by (unfold rval; change (IZR (2 ^ 32)) with 4294967296; apply IZR_lt in P; lra).
  rewrite <- (Rabs_pos_eq (rval 32 m)) in H by lra. apply exp_dom64 in H. rewrite Z.abs_eq in H by lia.
  do 2 eexists. split; [apply exp64_shape; lia|]. split; [apply exp64_shape; lia|].
  destruct (exp_inverse64 m _ _ ltac:(lia) (exp64_shape m ltac:(lia)) (exp64_shape (- m) ltac:(lia))) as (I1 & I2).
  match goal with |- rval 32 ?b * rval 32 ?a <= 1 < _ => set (u := b) in *; set (v := a) in * end.
  apply IZR_le in I1. apply IZR_lt in I2. rewrite mult_IZR in I1, I2. rewrite plus_IZR in I2. unfold rval, ulp. change (IZR (2 ^ 32)) with 4294967296. split; lra.
Qed.
