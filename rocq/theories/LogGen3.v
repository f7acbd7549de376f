(** Exact structure of log2 in the instantiations of LogGen.v: powers of two, doubling, order of the three logarithms. *)
From Coq Require Import ZArith Bool List Lia ZifyBool Reals Lra.
From Interval Require Import Tactic.
From Verif Require Import Base Fixed Math SpecReal BaseLemmas FixedLemmas CLemmas MathProofs PowProofs RealLemmas NumThms ExactProofs LogGen LogGen2.
Open Scope Z_scope.

Section MONO.
Variable c : cfg.
Hypothesis HS : log_cfg c.
Notation M := (mz c).
Notation B0 := (bz c).
Lemma HM : 2 <= M. Proof using All. pose proof (lc_M c HS) as H. clear - H. lia. Qed.
(** the digits *)
Fixpoint digits (k : nat) (z : Z) : Z :=
  match k with O => 0 | S k => frac_bit c z * 2 ^ Z.of_nat k + digits k (frac_next c z) end.
Lemma bit01 z : frac_bit c z = 0 \/ frac_bit c z = 1.
Proof using All. unfold frac_bit. destruct (_ <=? _); auto. Qed.
Lemma digits_range : forall k z, 0 <= digits k z < 2 ^ Z.of_nat k.
Proof using All.
  induction k as [|k IH]; intros z; cbn [digits]. { change (2 ^ Z.of_nat 0) with 1. lia. }
  rewrite Nat2Z.inj_succ, Z.pow_succ_r by lia. specialize (IH (frac_next c z)). destruct (bit01 z) as [-> | ->]; lia.
Qed.
Lemma frac_digits : forall (k : nat) z y, M <= z < 2 * M -> Z.of_nat k <= cf c ->
  - B0 <= y /\ y + 2 ^ Z.of_nat k <= B0 ->
  log2_frac k c z y (2 ^ Z.of_nat k / 2) = Ok (y + digits k z).
Proof using All.
  pose proof HM as H65.
  induction k as [|k IH]; intros z y Hz Hk Hy.
  - cbn [log2_frac digits]. f_equal. lia.
  - rewrite Nat2Z.inj_succ, Z.pow_succ_r in * by lia. replace (2 * 2 ^ Z.of_nat k / 2) with (2 ^ Z.of_nat k) by (rewrite Z.mul_comm, Z.div_mul; lia).
    assert (P : 0 < 2 ^ Z.of_nat k) by (apply Z.pow_pos_nonneg; lia).
    assert (PM : 2 ^ Z.of_nat k <= M) by (unfold mz; apply Z.pow_le_mono_r; lia).
    pose proof (lc_B c HS) as HB. rewrite (frac_step c HS); auto; try lia; try (apply (lg_v c HS); lia).
    pose proof (frac_next_range c HS z Hz) as NR. pose proof (bit01 z) as FB.
    rewrite IH; [|exact NR|lia|destruct FB as [-> | ->]; lia]. cbn [digits]. f_equal. lia.
Qed.
Lemma digits_mono : forall k z w, M <= z -> z <= w -> w < 2 * M -> digits k z <= digits k w.
Proof using All.
  pose proof HM as H65.
  induction k as [|k IH]; intros z w A B C; cbn [digits]; [lia|].
  pose proof (frac_next_range c HS z ltac:(lia)) as NZ. pose proof (frac_next_range c HS w ltac:(lia)) as NW.
  pose proof (digits_range k (frac_next c z)) as RZ. pose proof (digits_range k (frac_next c w)) as RW.
  assert (SQ : z * z <= w * w) by nia.
  assert (DV : z * z / M <= w * w / M) by (apply Z.div_le_mono; lia).
  assert (DV2 : z * z / (2 * M) <= w * w / (2 * M)) by (apply Z.div_le_mono; lia).
  assert (IHU : forall a b, a = frac_next c z -> b = frac_next c w -> a <= b -> digits k a <= digits k b) by (intros a b -> -> L; apply IH; lia).
  clear IH. unfold frac_bit, frac_next in *.
  destruct (Z.leb_spec (2 * M) (z * z / M)), (Z.leb_spec (2 * M) (w * w / M)); try lia.
  - specialize (IHU _ _ eq_refl eq_refl DV2). lia.
  - specialize (IHU _ _ eq_refl eq_refl DV). lia.
Qed.
Lemma digits_one k : digits k M = 0.
Proof using All.
  pose proof HM. induction k as [|k IH]; cbn [digits]; auto.
  assert (E : M * M / M = M) by (apply Z.div_mul; lia).
  assert (frac_bit c M = 0) by (unfold frac_bit; rewrite E; destruct (Z.leb_spec (2 * M) M); lia).
  assert (frac_next c M = M) by (unfold frac_next; rewrite E; destruct (Z.leb_spec (2 * M) M); lia).
  rewrite H0, H1, IH. lia.
Qed.

(** shape: [e] is the exponent, [x] the normalised argument *)
Definition norm (m e x : Z) : Prop := M <= x < 2 * M /\ ((0 <= e /\ x = m / 2 ^ e) \/ (e <= 0 /\ x = m * 2 ^ (- e))).
Theorem log2_shape m : valid c m = true -> 0 < m ->
  exists e x, fx_log2 c m = Ok (e * M + digits (Z.to_nat (cf c)) x) /\ norm m e x /\ - cf c <= e < bits (ct c) - 1 - cf c.
Proof using All.
  intros V P. pose proof (lc_M c HS) as HM. pose proof (lc_f c HS) as HF. pose proof (lc_fb c HS) as FB. pose proof (lc_B c HS) as HB. destruct (lc_room c HS) as [RO1 RO2].
  unfold fx_log2. rewrite (frac_start c HS). cbn [bind].
  assert (EM : (2 ^ (cf c - 1) = M / 2)%Z) by (rewrite (lc_M2 c HS); rewrite Z.mul_comm, Z.div_mul; lia).
  rewrite wrap_id.
  2: { apply (lc_t_ok c HS). } 2: { apply (lg_v c HS). rewrite EM. pose proof (Z.mul_div_le M 2 ltac:(lia)). assert (0 <= M / 2)%Z by (apply Z.div_pos; lia). lia. }
  rewrite zero_eq by (apply (lc_wf c HS)). cbn [bind]. rewrite fx_le_eq by (auto using lc_wf; apply v0, (lc_wf c HS)).
  replace (m <=? 0)%Z with false by lia.
  (* normalisation *)
  apply (lg_vi c HS) in V as Vm. set (n := (bits (ct c) - 1 - cf c)%Z) in *.
  assert (EB : (B0 = 2 ^ n * M)%Z) by (unfold bz, mz, n; rewrite <- Z.pow_add_r by lia; f_equal; lia).
  assert (NP : (5 <= n <= 63)%Z) by (pose proof (lc_bits c HS); unfold n; lia).
  assert (NV : forall x, (- (cf c * M) <= x <= n * M)%Z -> valid c x = true) by (intros x Hx; apply (lg_v c HS); clear - Hx RO1 RO2 HM HF; unfold n in Hx; nia).
  destruct ((up_ok c HS) (Z.to_nat (cf c)) 128 m 0) as (k1 & K1 & E1 & U1 & U2); auto; try lia.
  { rewrite Z2Nat.id by lia. change (2 ^ cf c)%Z with M. clear - P HM. nia. }
  { apply NV. nia. }
  { apply NV. rewrite Z2Nat.id by lia. nia. }
  rewrite Z2Nat.id in K1 by lia. rewrite E1. cbn [bind].
  assert (P1 : (0 < 2 ^ k1)%Z) by (apply Z.pow_pos_nonneg; lia).
  assert (V1 : valid c (m * 2 ^ k1) = true).
  { destruct U2 as [-> |U2]; [change (2 ^ 0)%Z with 1%Z; rewrite Z.mul_1_r; auto|apply (lg_v c HS); nia]. }
  destruct ((down_ok c HS) (Z.to_nat n) 128 (m * 2 ^ k1) (0 - k1 * M)) as (k2 & K2 & E2 & U3); auto; try lia.
  { rewrite Z2Nat.id by lia. apply (lg_vi c HS) in V1. clear - V1 EB HM. nia. }
  { apply NV. nia. }
  { apply NV. rewrite Z2Nat.id by lia. nia. }
  rewrite Z2Nat.id in K2 by lia. rewrite E2. cbn [bind].
  set (x := (m * 2 ^ k1 / 2 ^ k2)%Z) in *.
  assert (P2 : (0 < 2 ^ k2)%Z) by (apply Z.pow_pos_nonneg; lia).
  assert (KK : k1 = 0%Z \/ k2 = 0%Z).
  { destruct U2 as [->|U2]; [auto|]. right. destruct (Z.eq_dec k2 0); auto. exfalso.
    assert (2 <= 2 ^ k2)%Z by (change 2%Z with (2 ^ 1)%Z at 1; apply Z.pow_le_mono_r; lia).
    assert (x < M)%Z; [|lia]. apply Z.div_lt_upper_bound; nia. }
  rewrite (wrap_id (ci c) x) by (try apply (lc_i_ok c HS); apply (lc_irange c HS); clear - U3 HM; nia).
  assert (EF : Z.of_nat (Z.to_nat (cf c)) = cf c) by (apply Z2Nat.id; lia).
  pose proof (frac_digits (Z.to_nat (cf c)) x (0 - k1 * M + k2 * M) U3) as FR. rewrite EF in FR. change (2 ^ cf c) with M in FR.
  rewrite EM. rewrite FR; [|lia|destruct KK as [-> | ->]; nia]. cbn [bind]. unfold from_internal_value.
  exists (k2 - k1), x. split; [f_equal; lia|]. split.
  - split; [exact U3|]. destruct KK as [-> | ->].
    + left. split; [lia|]. unfold x. rewrite Z.sub_0_r. change (2 ^ 0) with 1. rewrite Z.mul_1_r. reflexivity.
    + right. split; [lia|]. unfold x. change (2 ^ 0) with 1. rewrite Z.div_1_r. f_equal. f_equal. lia.
  - assert (k2 < n); [|fold n; destruct KK as [-> | ->]; lia].
    destruct KK as [K0 | ->]; [|lia]. apply (Z.pow_lt_mono_r_iff 2); [lia|lia|].
    assert (x * 2 ^ k2 <= m); [|nia]. unfold x. rewrite K0. change (2 ^ 0) with 1. rewrite Z.mul_1_r.
    rewrite Z.mul_comm. apply Z.mul_div_le; auto.
Qed.

(** the exponent is determined by the argument *)
Lemma norm_bounds m e x : norm m e x -> - cf c <= e -> 2 ^ (e + cf c) <= m < 2 * 2 ^ (e + cf c).
Proof using All.
  intros (B & D) HK. pose proof HM. pose proof (lc_f c HS) as HF.
  destruct D as [(E & ->) | (E & ->)].
  - rewrite Z.pow_add_r by lia. change (2 ^ cf c) with M. assert (P : 0 < 2 ^ e) by (apply Z.pow_pos_nonneg; lia).
    pose proof (Z.div_mod m (2 ^ e) ltac:(lia)) as DM. pose proof (Z.mod_pos_bound m (2 ^ e) P) as MB.
    set (q := m / 2 ^ e) in *. set (p := 2 ^ e) in *. clearbody q p. clear - B DM MB P H. nia.
  - assert (EM : M = 2 ^ (e + cf c) * 2 ^ (- e)) by (rewrite <- Z.pow_add_r by lia; unfold mz; f_equal; lia).
    assert (P : 0 < 2 ^ (- e)) by (apply Z.pow_pos_nonneg; lia). rewrite EM in B. clear - B P.
    set (q := 2 ^ (e + cf c)) in *. set (p := 2 ^ (- e)) in *. clearbody q p. nia.
Qed.
Lemma norm_inj m e x e' x' : norm m e x -> norm m e' x' -> - cf c <= e -> - cf c <= e' -> e = e' /\ x = x'.
Proof using All.
  intros N N' H H'. pose proof (norm_bounds _ _ _ N H) as B. pose proof (norm_bounds _ _ _ N' H') as B'.
  assert (e = e').
  { destruct (Z.lt_trichotomy e e') as [L|[L|L]]; auto; exfalso.
    - assert (2 * 2 ^ (e + cf c) <= 2 ^ (e' + cf c)) by (rewrite <- Z.pow_succ_r by lia; apply Z.pow_le_mono_r; lia). lia.
    - assert (2 * 2 ^ (e' + cf c) <= 2 ^ (e + cf c)) by (rewrite <- Z.pow_succ_r by lia; apply Z.pow_le_mono_r; lia). lia. }
  split; auto. subst e'. destruct N as (_ & [(E & ->) | (E & ->)]), N' as (_ & [(E' & ->) | (E' & ->)]); auto;
    assert (e = 0) by lia; subst e; change (2 ^ 0) with 1; change (2 ^ (- 0)) with 1; rewrite Z.div_1_r, Z.mul_1_r; auto.
Qed.
Lemma norm_mono m n e x e' x' : norm m e x -> norm n e' x' -> - cf c <= e -> - cf c <= e' -> m <= n ->
  e < e' \/ (e = e' /\ x <= x').
Proof using All.
  intros N N' H H' L. pose proof (norm_bounds _ _ _ N H) as B. pose proof (norm_bounds _ _ _ N' H') as B'.
  destruct (Z.lt_trichotomy e e') as [G|[G|G]]; [auto| |exfalso].
  - right. split; auto. subst e'. destruct N as (_ & [(E & ->) | (E & ->)]), N' as (_ & [(E' & ->) | (E' & ->)]).
    + apply Z.div_le_mono; auto. apply Z.pow_pos_nonneg; lia.
    + assert (e = 0) by lia; subst e. change (2 ^ 0) with 1; change (2 ^ (- 0)) with 1; rewrite Z.div_1_r, Z.mul_1_r; auto.
    + assert (e = 0) by lia; subst e. change (2 ^ 0) with 1; change (2 ^ (- 0)) with 1; rewrite Z.div_1_r, Z.mul_1_r; auto.
    + apply Z.mul_le_mono_nonneg_r; auto. apply Z.pow_nonneg; lia.
  - assert (2 * 2 ^ (e' + cf c) <= 2 ^ (e + cf c)) by (rewrite <- Z.pow_succ_r by lia; apply Z.pow_le_mono_r; lia). lia.
Qed.

Theorem log2_mono m n r s : valid c m = true -> valid c n = true -> 0 < m -> m <= n ->
  fx_log2 c m = Ok r -> fx_log2 c n = Ok s -> r <= s.
Proof using All.
  intros Vm Vn P L Em En. pose proof HM.
  destruct (log2_shape m Vm P) as (e & x & E & N & R). destruct (log2_shape n Vn ltac:(lia)) as (e' & x' & E' & N' & R').
  rewrite E in Em. rewrite E' in En. injection Em as <-. injection En as <-.
  pose proof (lc_f c HS) as HF.
  pose proof (digits_range (Z.to_nat (cf c)) x) as D. pose proof (digits_range (Z.to_nat (cf c)) x') as D'.
  rewrite Z2Nat.id in D, D' by lia. change (2 ^ cf c) with M in D, D'.
  destruct (norm_mono _ _ _ _ _ _ N N' ltac:(lia) ltac:(lia) L) as [G | (-> & G)].
  - set (d := digits _ x) in *. set (d' := digits _ x') in *. clearbody d d'. clear - G D D' H. nia.
  - destruct N as (B & _), N' as (B' & _). pose proof (digits_mono (Z.to_nat (cf c)) x x' ltac:(lia) G ltac:(lia)). lia.
Qed.
Theorem log2_double m r : valid c m = true -> 0 < m -> valid c (2 * m) = true -> fx_log2 c m = Ok r ->
  fx_log2 c (2 * m) = Ok (r + M).
Proof using All.
  intros V P V2 Er. pose proof HM.
  destruct (log2_shape m V P) as (e & x & E & N & R). destruct (log2_shape (2 * m) V2 ltac:(lia)) as (e' & x' & E' & N' & R').
  rewrite E in Er. injection Er as <-. rewrite E'.
  assert (N2 : norm (2 * m) (e + 1) x).
  { destruct N as (B & D). split; auto. destruct D as [(E0 & ->) | (E0 & ->)].
    - left. split; [lia|]. rewrite Z.pow_add_r by lia. change (2 ^ 1) with 2. rewrite (Z.mul_comm _ 2).
      rewrite Z.div_mul_cancel_l; auto; [apply Z.pow_nonzero; lia|lia].
    - destruct (Z.eq_dec e 0) as [->|Ne].
      + left. split; [lia|]. change (2 ^ (- 0)) with 1. change (2 ^ (0 + 1)) with 2. rewrite (Z.mul_comm 2 m), Z.div_mul by lia. lia.
      + right. split; [lia|]. replace (- e) with (- (e + 1) + 1) by lia. rewrite Z.pow_add_r by lia. change (2 ^ 1) with 2. ring. }
  destruct (norm_inj _ _ _ _ _ N2 N' ltac:(lia) ltac:(lia)) as (<- & <-). f_equal. lia.
Qed.
Theorem log2_pow2 j : 0 <= j -> valid c (2 ^ j) = true -> fx_log2 c (2 ^ j) = Ok ((j - cf c) * M).
Proof using All.
  intros J V. pose proof HM. pose proof (lc_f c HS) as HF. assert (P : 0 < 2 ^ j) by (apply Z.pow_pos_nonneg; lia).
  destruct (log2_shape (2 ^ j) V P) as (e & x & E & N & R). rewrite E.
  assert (N2 : norm (2 ^ j) (j - cf c) M).
  { split; [lia|]. destruct (Z.le_gt_cases (cf c) j).
    - left. split; [lia|]. rewrite <- Z.pow_sub_r by lia. unfold mz. f_equal. lia.
    - right. split; [lia|]. rewrite <- Z.pow_add_r by lia. unfold mz. f_equal. lia. }
  destruct (norm_inj _ _ _ _ _ N N2 ltac:(lia) ltac:(lia)) as (-> & ->). rewrite digits_one. f_equal. lia.
Qed.

(** the other two divide by a positive constant, truncating toward zero *)
Lemma log_div_eq m l k : cr c = false -> valid c m = true -> 0 < m -> fx_log2 c m = Ok l -> M <= k -> valid c k = true ->
  fx_div c l k = Ok (Z.quot (l * M) k).
Proof using All.
  intros CR V P E K Vk. pose proof HM as H. pose proof (lc_wf c HS) as W.
  destruct (log2_main c HS m V P) as (l' & E' & R & _). rewrite E in E'. injection E' as <-.
  destruct (lc_room c HS) as [O1 O2]. assert (LB : Z.abs l < B0) by (clear - R O1 O2 H; nia).
  assert (Vl : valid c l = true) by (apply (lg_v c HS); lia).
  rewrite fx_div_eq by (auto; lia). change (2 ^ cf c) with M. f_equal. apply valid_wrap; auto. apply (lg_v c HS).
  assert (Z.abs (Z.quot (l * M) k) <= Z.abs l).
  { rewrite <- Z.quot_abs by lia. rewrite (Z.abs_eq k) by lia. rewrite Z.quot_div_nonneg by lia.
    apply Z.div_le_upper_bound; [lia|]. rewrite Z.abs_mul. rewrite (Z.abs_eq M) by lia. rewrite (Z.mul_comm k). apply Z.mul_le_mono_nonneg_l; lia. }
  lia.
Qed.
Lemma logk_mono (k0 : res Z) (x : R) m n : cr c = false -> trunc_const (cf c) k0 x -> (1 <= x <= 4)%R ->
  valid c m = true -> valid c n = true -> 0 < m -> m <= n -> exists r s,
  (let* k := k0 in let* l := fx_log2 c m in fx_div c l k) = Ok r /\ (let* k := k0 in let* l := fx_log2 c n in fx_div c l k) = Ok s /\ r <= s.
Proof using All.
  intros CR (k & Ek & K1 & K2) X Vm Vn P L. pose proof HM. pose proof (lc_B c HS) as HB.
  assert (KM : M <= k <= 4 * M).
  { unfold rval, ulp in *. change (2 ^ cf c) with M in *. assert (HR : (2 <= IZR M)%R) by (apply IZR_le; lia).
    assert (HI : (0 < / IZR M)%R) by (apply Rinv_0_lt_compat; lra).
    assert (KA : (IZR k <= x * IZR M < IZR k + 1)%R).
    { split.
      - apply Rmult_le_reg_r with (/ IZR M)%R; auto. replace (x * IZR M * / IZR M)%R with x by (field; lra). exact K1.
      - apply Rmult_lt_reg_r with (/ IZR M)%R; auto. replace (x * IZR M * / IZR M)%R with x by (field; lra).
        replace ((IZR k + 1) * / IZR M)%R with (IZR k / IZR M + / IZR M)%R by (field; lra). exact K2. }
    split.
    - assert (M < k + 1); [|lia]. apply lt_IZR. rewrite plus_IZR. assert (IZR M <= x * IZR M)%R by nra. lra.
    - apply le_IZR. rewrite mult_IZR. nra. }
  assert (Vk : valid c k = true) by (apply (lg_v c HS); lia).
  rewrite Ek. cbn [bind].
  destruct (log2_main c HS m Vm P) as (l & E & _). destruct (log2_main c HS n Vn ltac:(lia)) as (l' & E' & _).
  rewrite E, E'. cbn [bind]. pose proof (log2_mono m n _ _ Vm Vn P L E E') as LE.
  rewrite (log_div_eq m _ k CR Vm P E ltac:(lia) Vk), (log_div_eq n _ k CR Vn ltac:(lia) E' ltac:(lia) Vk).
  eexists. eexists. split; [reflexivity|]. split; [reflexivity|]. apply Z.quot_le_mono; [lia|]. apply Z.mul_le_mono_nonneg_r; lia.
Qed.
End MONO.

Open Scope R_scope.
Lemma pow_powerRZ' n : (0 <= n)%Z -> IZR (2 ^ n) = powerRZ 2 n.
Proof. intros H. destruct n as [|p|p]; [reflexivity| |lia]. cbn [powerRZ]. rewrite <- (positive_nat_Z p), <- pow_IZR. reflexivity. Qed.
Lemma powerRZ_neg' n : powerRZ 2 (- n) = / powerRZ 2 n.
Proof. destruct n; cbn; try rewrite Rinv_inv; auto. rewrite Rinv_1. reflexivity. Qed.
Lemma rv_pos f a : (1 <= f)%Z -> 0 < rval f a <-> (0 < a)%Z.
Proof.
  intros F. assert (HI : 0 < / IZR (2 ^ f)) by (apply Rinv_0_lt_compat, IZR_lt, pow2_pos; lia). unfold rval, Rdiv. split; intros H.
  - apply lt_IZR. apply Rmult_lt_reg_r with (/ IZR (2 ^ f)); lra.
  - apply IZR_lt in H. apply Rmult_lt_0_compat; lra.
Qed.
Lemma rv_le f a b : (1 <= f)%Z -> rval f a <= rval f b <-> (a <= b)%Z.
Proof.
  intros F. assert (HI : 0 < / IZR (2 ^ f)) by (apply Rinv_0_lt_compat, IZR_lt, pow2_pos; lia). unfold rval, Rdiv. split; intros H.
  - apply le_IZR. apply Rmult_le_reg_r with (/ IZR (2 ^ f)); lra.
  - apply IZR_le in H. apply Rmult_le_compat_r; lra.
Qed.
Lemma log2_gen_order c m n : log_cfg c -> valid c m = true -> valid c n = true -> 0 < rval (cf c) m -> rval (cf c) m <= rval (cf c) n ->
  exists r s, fx_log2 c m = Ok r /\ fx_log2 c n = Ok s /\ rval (cf c) r <= rval (cf c) s.
Proof.
  intros HS Vm Vn P L. pose proof (lc_f c HS). apply (rv_pos (cf c) m ltac:(lia)) in P as P0. apply (rv_le (cf c) m n ltac:(lia)) in L as L0.
  destruct (log2_main c HS m Vm P0) as (l & E & _). destruct (log2_main c HS n Vn ltac:(lia)) as (l' & E' & _).
  exists l, l'. split; [auto|]. split; [auto|]. apply rv_le; [lia|]. exact (log2_mono c HS m n _ _ Vm Vn P0 L0 E E').
Qed.
Lemma log_gen_order c m n : log_cfg c -> cr c = false -> valid c m = true -> valid c n = true -> 0 < rval (cf c) m -> rval (cf c) m <= rval (cf c) n ->
  exists r s, fx_log c m = Ok r /\ fx_log c n = Ok s /\ rval (cf c) r <= rval (cf c) s.
Proof.
  intros HS CR Vm Vn P L. pose proof (lc_f c HS). apply (rv_pos (cf c) m ltac:(lia)) in P as P0. apply (rv_le (cf c) m n ltac:(lia)) in L as L0.
  destruct (logk_mono c HS _ _ m n CR (k_e c HS CR) ltac:(split; interval) Vm Vn P0 L0) as (r & s & A & B & C).
  exists r, s. split; [exact A|]. split; [exact B|]. apply rv_le; [lia|]. exact C.
Qed.
Lemma log10_gen_order c m n : log_cfg c -> cr c = false -> valid c m = true -> valid c n = true -> 0 < rval (cf c) m -> rval (cf c) m <= rval (cf c) n ->
  exists r s, fx_log10 c m = Ok r /\ fx_log10 c n = Ok s /\ rval (cf c) r <= rval (cf c) s.
Proof.
  intros HS CR Vm Vn P L. pose proof (lc_f c HS). apply (rv_pos (cf c) m ltac:(lia)) in P as P0. apply (rv_le (cf c) m n ltac:(lia)) in L as L0.
  destruct (logk_mono c HS _ _ m n CR (k_10 c HS CR) ltac:(split; interval) Vm Vn P0 L0) as (r & s & A & B & C).
  exists r, s. split; [exact A|]. split; [exact B|]. apply rv_le; [lia|]. exact C.
Qed.

(** doubling the argument adds one; powers of two are exact *)
Lemma log2_gen_double c m : log_cfg c -> valid c m = true -> 0 < rval (cf c) m -> valid c (2 * m) = true ->
  exists r s, fx_log2 c m = Ok r /\ fx_log2 c (2 * m) = Ok s /\ rval (cf c) s = rval (cf c) r + 1.
Proof.
  intros HS V P V2. pose proof (lc_f c HS) as F. apply (rv_pos (cf c) m ltac:(lia)) in P as P0.
  destruct (log2_main c HS m V P0) as (l & E & _). exists l, (l + mz c)%Z. split; [auto|]. split; [apply (log2_double c HS); auto|].
  unfold rval. rewrite plus_IZR. unfold mz. field. apply not_0_IZR. apply Z.pow_nonzero; lia.
Qed.
Lemma log2_gen_pow2 c m k : log_cfg c -> valid c m = true -> rval (cf c) m = powerRZ 2 k ->
  exists r, fx_log2 c m = Ok r /\ rval (cf c) r = IZR k.
Proof.
  intros HS V Q. pose proof (lc_f c HS) as F. assert (HR : 0 < IZR (2 ^ cf c)) by (apply IZR_lt, pow2_pos; lia).
  assert (PP : 0 < powerRZ 2 k) by (apply powerRZ_lt; lra).
  assert (EQ : IZR m = powerRZ 2 (k + cf c)).
  { rewrite powerRZ_add by lra. rewrite <- Q. unfold rval. rewrite <- (pow_powerRZ' (cf c)) by lia. field. lra. }
  destruct (Z.le_gt_cases 0 (k + cf c)) as [K|K].
  - rewrite <- (pow_powerRZ' (k + cf c)) in EQ by auto. apply eq_IZR in EQ. subst m.
    exists (k * mz c)%Z. split.
    + rewrite (log2_pow2 c HS) by auto. f_equal. f_equal. lia.
    + unfold rval, mz. rewrite mult_IZR. field. lra.
  - exfalso. assert (P0 : (0 < m)%Z) by (apply lt_IZR; rewrite EQ; apply powerRZ_lt; lra).
    assert (1 <= IZR m) by (apply IZR_le; lia).
    assert (powerRZ 2 (k + cf c) * 2 <= 1).
    { replace (k + cf c)%Z with (- (1 + (- (k + cf c) - 1)))%Z by lia. rewrite powerRZ_neg', powerRZ_add by lra.
      rewrite <- (pow_powerRZ' (- (k + cf c) - 1)) by lia. change (powerRZ 2 1) with (2 * 1).
      assert (1 <= IZR (2 ^ (- (k + cf c) - 1))) by (apply IZR_le; pose proof (pow2_pos (- (k + cf c) - 1) ltac:(lia)); lia).
      rewrite Rinv_mult. assert (/ IZR (2 ^ (- (k + cf c) - 1)) <= 1) by (rewrite <- Rinv_1; apply Rinv_le_contravar; lra). lra. }
    lra.
Qed.
