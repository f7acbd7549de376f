(** Exact structure of log2: integer part from the exponent, fraction digits by repeated squaring.  Gives exactness at powers of two,
    log2 (2x) = log2 x + 1, and monotonicity of the three logarithms. *)
From Coq Require Import ZArith Bool List Lia ZifyBool.
From Verif Require Import Base Fixed Math BaseLemmas FixedLemmas CLemmas MathProofs PowProofs StdProofs LogProofs.
Open Scope Z_scope.

Section MONO.
Variable c : cfg.
Hypothesis HS : std c.
Let M := 2 ^ cf c.
Lemma HM : 65536 <= M. Proof using All. pose proof (std_M c HS) as H. fold M in H. clear - H. lia. Qed.

Lemma fM4 : cf c * M <= M * M / 4. Proof using All. unfold M. destruct HS as [-> | ->]; vm_compute; congruence. Qed.

(** the digits *)
Fixpoint digits (k : nat) (z : Z) : Z :=
  match k with O => 0 | S k => frac_bit c z * 2 ^ Z.of_nat k + digits k (frac_next c z) end.
Lemma bit01 z : frac_bit c z = 0 \/ frac_bit c z = 1.
Proof using All. unfold frac_bit. destruct (_ <=? _); auto. Qed.
Lemma digits_range : forall k z, 0 <= digits k z < 2 ^ Z.of_nat k.
Proof using All.
  induction k as [|k IH]; intros z; cbn [digits]. { change (2 ^ Z.of_nat 0) with 1. lia. }
  rewrite Nat2Z.inj_succ, Z.pow_succ_r by lia. specialize (IH (frac_next c z)). destruct (bit01 z) as [-> | ->]; lia.
Qed.
Lemma frac_digits : forall (k : nat) z y, M <= z < 2 * M -> Z.of_nat k <= cf c ->
  - (M * M) <= 2 * y /\ 2 * (y + 2 ^ Z.of_nat k) <= M * M ->
  log2_frac k c z y (2 ^ Z.of_nat k / 2) = Ok (y + digits k z).
Proof using All.
  pose proof HM as H65.
  induction k as [|k IH]; intros z y Hz Hk Hy.
  - cbn [log2_frac digits]. f_equal. lia.
  - rewrite Nat2Z.inj_succ, Z.pow_succ_r in * by lia. replace (2 * 2 ^ Z.of_nat k / 2) with (2 ^ Z.of_nat k) by (rewrite Z.mul_comm, Z.div_mul; lia).
    assert (P : 0 < 2 ^ Z.of_nat k) by (apply Z.pow_pos_nonneg; lia).
    assert (PM : 2 ^ Z.of_nat k <= M) by (unfold M; apply Z.pow_le_mono_r; lia).
    assert (LV : forall x, - (M * M) <= 2 * x < M * M -> valid c x = true) by (intros x; apply std_valid; auto).
    rewrite (frac_step c HS) by (auto; try lia; apply LV; nia).
    pose proof (frac_next_range c HS z Hz) as NR. pose proof (bit01 z) as FB.
    rewrite IH; [|exact NR|lia|destruct FB as [-> | ->]; lia]. cbn [digits]. f_equal. lia.
Qed.
Lemma digits_mono : forall k z w, M <= z -> z <= w -> w < 2 * M -> digits k z <= digits k w.
Proof using All.
  pose proof HM as H65.
  induction k as [|k IH]; intros z w A B C; cbn [digits]; [lia|].
  pose proof (frac_next_range c HS z ltac:(fold M; lia)) as NZ. pose proof (frac_next_range c HS w ltac:(fold M; lia)) as NW. fold M in NZ, NW.
  pose proof (digits_range k (frac_next c z)) as RZ. pose proof (digits_range k (frac_next c w)) as RW.
  assert (SQ : z * z <= w * w) by nia.
  assert (DV : z * z / M <= w * w / M) by (apply Z.div_le_mono; lia).
  assert (DV2 : z * z / (2 * M) <= w * w / (2 * M)) by (apply Z.div_le_mono; lia).
  assert (IHU : forall a b, a = frac_next c z -> b = frac_next c w -> a <= b -> digits k a <= digits k b) by (intros a b -> -> L; apply IH; lia).
  clear IH. unfold frac_bit, frac_next in *. fold M in NZ, NW, RZ, RW, IHU |- *.
  destruct (Z.leb_spec (2 * M) (z * z / M)), (Z.leb_spec (2 * M) (w * w / M)); try lia.
  - specialize (IHU _ _ eq_refl eq_refl DV2). lia.
  - specialize (IHU _ _ eq_refl eq_refl DV). lia.
Qed.
Lemma digits_one k : digits k M = 0.
Proof using All.
  pose proof HM. induction k as [|k IH]; cbn [digits]; auto.
  assert (E : M * M / M = M) by (apply Z.div_mul; lia).
  assert (frac_bit c M = 0) by (unfold frac_bit; fold M; rewrite E; destruct (Z.leb_spec (2 * M) M); lia).
  assert (frac_next c M = M) by (unfold frac_next; fold M; rewrite E; destruct (Z.leb_spec (2 * M) M); lia).
  rewrite H0, H1, IH. lia.
Qed.

(** shape: [e] is the exponent, [x] the normalised argument *)
Definition norm (m e x : Z) : Prop := M <= x < 2 * M /\ ((0 <= e /\ x = m / 2 ^ e) \/ (e <= 0 /\ x = m * 2 ^ (- e))).
Theorem log2_shape m : valid c m = true -> 0 < m ->
  exists e x, fx_log2 c m = Ok (e * M + digits (Z.to_nat (cf c)) x) /\ norm m e x /\ - cf c <= e < cf c.
Proof using All.
  intros V P. pose proof (std_M c HS) as HM. fold M in HM. pose proof (std_f c HS) as HF.
  assert (fM : cf c * M <= M * M / 4) by (unfold M; destruct HS as [-> | ->]; vm_compute; congruence).
  assert (fM' : 4 * (cf c * M) <= M * M) by (pose proof (Z.mul_div_le (M * M) 4 ltac:(lia)); lia).
  unfold fx_log2. rewrite (frac_start c HS). cbn [bind].
  assert (EM : 2 ^ (cf c - 1) = M / 2) by (rewrite (std_M2 c HS : M = _); rewrite Z.mul_comm, Z.div_mul; lia).
  rewrite wrap_id.
  2: { apply std_t_ok; auto. } 2: { apply (lg_v c HS). fold M. rewrite EM. pose proof (Z.mul_div_le M 2 ltac:(lia)). assert (0 <= M / 2) by (apply Z.div_pos; lia). nia. }
  rewrite zero_eq by (apply std_wf; auto). cbn [bind]. rewrite s_le by (auto; apply v0, std_wf; auto).
  replace (m <=? 0) with false by lia.
  apply (lg_vi c HS) in V as Vm. fold M in Vm.
  assert (NV : forall x, - (cf c * M) <= x <= cf c * M -> valid c x = true) by (intros x Hx; apply (lg_v c HS); fold M; clear - Hx fM' HM HF; nia).
  destruct (up_ok c HS (Z.to_nat (cf c)) 128 m 0) as (k1 & K1 & E1 & U1 & U2); auto; try lia.
  { rewrite Z2Nat.id by lia. fold M. nia. }
  { apply NV. nia. }
  { apply NV. rewrite Z2Nat.id by lia. fold M. nia. }
  fold M in E1, U1, U2. rewrite Z2Nat.id in K1 by lia. rewrite E1. cbn [bind].
  assert (P1 : 0 < 2 ^ k1) by (apply Z.pow_pos_nonneg; lia).
  assert (V1 : valid c (m * 2 ^ k1) = true).
  { destruct U2 as [-> |U2]; [change (2 ^ 0) with 1; rewrite Z.mul_1_r; auto|apply (lg_v c HS); fold M; nia]. }
  destruct (down_ok c HS (Z.to_nat (cf c)) 128 (m * 2 ^ k1) (0 - k1 * M)) as (k2 & K2 & E2 & U3); auto; try lia.
  { rewrite Z2Nat.id by lia. fold M. apply (lg_vi c HS) in V1. fold M in V1. nia. }
  { apply NV. nia. }
  { apply NV. rewrite Z2Nat.id by lia. fold M. nia. }
  fold M in E2, U3. rewrite Z2Nat.id in K2 by lia. rewrite E2. cbn [bind].
  set (x := m * 2 ^ k1 / 2 ^ k2) in *.
  assert (P2 : 0 < 2 ^ k2) by (apply Z.pow_pos_nonneg; lia).
  assert (KK : k1 = 0 \/ k2 = 0).
  { destruct U2 as [->|U2]; [auto|]. right. destruct (Z.eq_dec k2 0); auto. exfalso.
    assert (2 <= 2 ^ k2) by (change 2 with (2 ^ 1) at 1; apply Z.pow_le_mono_r; lia).
    assert (x < M); [|lia]. apply Z.div_lt_upper_bound; nia. }
  rewrite (wrap_id (ci c) x) by (try apply std_i_ok; auto; apply std_irange; auto; fold M; nia).
  assert (EF : Z.of_nat (Z.to_nat (cf c)) = cf c) by (apply Z2Nat.id; lia).
  pose proof (frac_digits (Z.to_nat (cf c)) x (0 - k1 * M + k2 * M) U3) as FR. rewrite EF in FR. fold M in FR.
  rewrite EM. rewrite FR; [|lia|destruct KK as [-> | ->]; nia]. cbn [bind]. unfold from_internal_value.
  exists (k2 - k1), x. split; [f_equal; lia|]. split.
  - split; [exact U3|]. destruct KK as [-> | ->].
    + left. split; [lia|]. unfold x. rewrite Z.sub_0_r. change (2 ^ 0) with 1. rewrite Z.mul_1_r. reflexivity.
    + right. split; [lia|]. unfold x. change (2 ^ 0) with 1. rewrite Z.div_1_r. f_equal. f_equal. lia.
  - assert (k2 < cf c); [|destruct KK as [-> | ->]; lia].
    destruct KK as [K0 | ->]; [|lia]. apply (Z.pow_lt_mono_r_iff 2); [lia|lia|]. fold M.
    assert (x * 2 ^ k2 <= m); [|nia]. unfold x. rewrite K0. change (2 ^ 0) with 1. rewrite Z.mul_1_r.
    rewrite Z.mul_comm. apply Z.mul_div_le; auto.
Qed.

(** the exponent is determined by the argument *)
Lemma norm_bounds m e x : norm m e x -> - cf c <= e -> 2 ^ (e + cf c) <= m < 2 * 2 ^ (e + cf c).
Proof using All.
  intros (B & D) HK. pose proof HM. pose proof (std_f c HS) as HF.
  destruct D as [(E & ->) | (E & ->)].
  - rewrite Z.pow_add_r by lia. fold M. assert (P : 0 < 2 ^ e) by (apply Z.pow_pos_nonneg; lia).
    pose proof (Z.div_mod m (2 ^ e) ltac:(lia)) as DM. pose proof (Z.mod_pos_bound m (2 ^ e) P) as MB.
    set (q := m / 2 ^ e) in *. set (p := 2 ^ e) in *. clearbody q p. clear - B DM MB P H. nia.
  - assert (EM : M = 2 ^ (e + cf c) * 2 ^ (- e)) by (rewrite <- Z.pow_add_r by lia; unfold M; f_equal; lia).
    assert (P : 0 < 2 ^ (- e)) by (apply Z.pow_pos_nonneg; lia). rewrite EM in B. clear - B P.
    set (q := 2 ^ (e + cf c)) in *. set (p := 2 ^ (- e)) in *. clearbody q p. nia.
Qed.
Lemma norm_inj m e x e' x' : norm m e x -> norm m e' x' -> - cf c <= e -> - cf c <= e' -> e = e' /\ x = x'.
Proof using All.
  intros N N' H H'. pose proof (norm_bounds _ _ _ N H) as B. pose proof (norm_bounds _ _ _ N' H') as B'.
  assert (e = e').
  { destruct (Z.lt_trichotomy e e') as [L|[L|L]]; auto; exfalso.
    - assert (2 * 2 ^ (e + cf c) <= 2 ^ (e' + cf c)) by (rewrite <- Z.pow_succ_r by lia; apply Z.pow_le_mono_r; lia). lia.
    - assert (2 * 2 ^ (e' + cf c) <= 2 ^ (e + cf c)) by (rewrite <- Z.pow_succ_r by lia; apply Z.pow_le_mono_r; lia). lia. }
  split; auto. subst e'. destruct N as (_ & [(E & ->) | (E & ->)]), N' as (_ & [(E' & ->) | (E' & ->)]); auto;
    assert (e = 0) by lia; subst e; change (2 ^ 0) with 1; change (2 ^ (- 0)) with 1; rewrite Z.div_1_r, Z.mul_1_r; auto.
Qed.
Lemma norm_mono m n e x e' x' : norm m e x -> norm n e' x' -> - cf c <= e -> - cf c <= e' -> m <= n ->
  e < e' \/ (e = e' /\ x <= x').
Proof using All.
  intros N N' H H' L. pose proof (norm_bounds _ _ _ N H) as B. pose proof (norm_bounds _ _ _ N' H') as B'.
  destruct (Z.lt_trichotomy e e') as [G|[G|G]]; [auto| |exfalso].
  - right. split; auto. subst e'. destruct N as (_ & [(E & ->) | (E & ->)]), N' as (_ & [(E' & ->) | (E' & ->)]).
    + apply Z.div_le_mono; auto. apply Z.pow_pos_nonneg; lia.
    + assert (e = 0) by lia; subst e. change (2 ^ 0) with 1; change (2 ^ (- 0)) with 1; rewrite Z.div_1_r, Z.mul_1_r; auto.
    + assert (e = 0) by lia; subst e. change (2 ^ 0) with 1; change (2 ^ (- 0)) with 1; rewrite Z.div_1_r, Z.mul_1_r; auto.
    + apply Z.mul_le_mono_nonneg_r; auto. apply Z.pow_nonneg; lia.
  - assert (2 * 2 ^ (e' + cf c) <= 2 ^ (e + cf c)) by (rewrite <- Z.pow_succ_r by lia; apply Z.pow_le_mono_r; lia). lia.
Qed.

Theorem log2_mono m n r s : valid c m = true -> valid c n = true -> 0 < m -> m <= n ->
  fx_log2 c m = Ok r -> fx_log2 c n = Ok s -> r <= s.
Proof using All.
  intros Vm Vn P L Em En. pose proof HM.
  destruct (log2_shape m Vm P) as (e & x & E & N & R). destruct (log2_shape n Vn ltac:(lia)) as (e' & x' & E' & N' & R').
  rewrite E in Em. rewrite E' in En. injection Em as <-. injection En as <-.
  pose proof (std_f c HS) as HF.
  pose proof (digits_range (Z.to_nat (cf c)) x) as D. pose proof (digits_range (Z.to_nat (cf c)) x') as D'.
  rewrite Z2Nat.id in D, D' by lia. fold M in D, D'.
  destruct (norm_mono _ _ _ _ _ _ N N' ltac:(lia) ltac:(lia) L) as [G | (-> & G)].
  - set (d := digits _ x) in *. set (d' := digits _ x') in *. clearbody d d'. clear - G D D' H. nia.
  - destruct N as (B & _), N' as (B' & _). pose proof (digits_mono (Z.to_nat (cf c)) x x' ltac:(lia) G ltac:(lia)). lia.
Qed.
Theorem log2_double m r : valid c m = true -> 0 < m -> valid c (2 * m) = true -> fx_log2 c m = Ok r ->
  fx_log2 c (2 * m) = Ok (r + M).
Proof using All.
  intros V P V2 Er. pose proof HM.
  destruct (log2_shape m V P) as (e & x & E & N & R). destruct (log2_shape (2 * m) V2 ltac:(lia)) as (e' & x' & E' & N' & R').
  rewrite E in Er. injection Er as <-. rewrite E'.
  assert (N2 : norm (2 * m) (e + 1) x).
  { destruct N as (B & D). split; auto. destruct D as [(E0 & ->) | (E0 & ->)].
    - left. split; [lia|]. rewrite Z.pow_add_r by lia. change (2 ^ 1) with 2. rewrite (Z.mul_comm _ 2).
      rewrite Z.div_mul_cancel_l; auto; [apply Z.pow_nonzero; lia|lia].
    - destruct (Z.eq_dec e 0) as [->|Ne].
      + left. split; [lia|]. change (2 ^ (- 0)) with 1. change (2 ^ (0 + 1)) with 2. rewrite (Z.mul_comm 2 m), Z.div_mul by lia. lia.
      + right. split; [lia|]. replace (- e) with (- (e + 1) + 1) by lia. rewrite Z.pow_add_r by lia. change (2 ^ 1) with 2. ring. }
  destruct (norm_inj _ _ _ _ _ N2 N' ltac:(lia) ltac:(lia)) as (<- & <-). f_equal. lia.
Qed.
Theorem log2_pow2 j : 0 <= j -> valid c (2 ^ j) = true -> fx_log2 c (2 ^ j) = Ok ((j - cf c) * M).
Proof using All.
  intros J V. pose proof HM. pose proof (std_f c HS) as HF. assert (P : 0 < 2 ^ j) by (apply Z.pow_pos_nonneg; lia).
  destruct (log2_shape (2 ^ j) V P) as (e & x & E & N & R). rewrite E.
  assert (N2 : norm (2 ^ j) (j - cf c) M).
  { split; [lia|]. destruct (Z.le_gt_cases (cf c) j).
    - left. split; [lia|]. rewrite <- Z.pow_sub_r by lia. unfold M. f_equal. lia.
    - right. split; [lia|]. rewrite <- Z.pow_add_r by lia. unfold M. f_equal. lia. }
  destruct (norm_inj _ _ _ _ _ N N2 ltac:(lia) ltac:(lia)) as (-> & ->). rewrite digits_one. f_equal. lia.
Qed.

(** the other two divide by a positive constant, truncating toward zero *)
Lemma quot_mono a b k : 0 < k -> a <= b -> Z.quot a k <= Z.quot b k.
Proof using All. intros. apply Z.quot_le_mono; auto. Qed.
Lemma log_div_eq m l k : valid c m = true -> 0 < m -> fx_log2 c m = Ok l -> M <= k -> valid c k = true ->
  fx_div c l k = Ok (Z.quot (l * M) k) .
Proof using All.
  intros V P E K Vk. pose proof HM as H. pose proof (std_M c HS) as HMM. fold M in HMM.
  destruct (log2_shape m V P) as (e & x & E1 & N & R). rewrite E in E1. injection E1 as ->.
  pose proof (std_f c HS) as HF. pose proof (digits_range (Z.to_nat (cf c)) x) as D. rewrite Z2Nat.id in D by lia. fold M in D.
  set (l := e * M + digits (Z.to_nat (cf c)) x) in *.
  assert (fM : cf c * M <= M * M / 4) by exact fM4.
  assert (fM' : 4 * (cf c * M) <= M * M) by (pose proof (Z.mul_div_le (M * M) 4 ltac:(lia)); lia).
  assert (LB : Z.abs l <= cf c * M) by (unfold l; clear - D R H; nia).
  assert (Vl : valid c l = true) by (apply (lg_v c HS); fold M; clear - LB fM' H; lia).
  apply s_div; auto; [lia|]. fold M. apply (lg_v c HS). fold M.
  assert (Z.abs (Z.quot (l * M) k) <= Z.abs l).
  { rewrite <- Z.quot_abs by lia. rewrite (Z.abs_eq k) by lia. rewrite Z.quot_div_nonneg by lia.
    apply Z.div_le_upper_bound; [lia|]. rewrite Z.abs_mul. rewrite (Z.abs_eq M) by lia. rewrite (Z.mul_comm k). apply Z.mul_le_mono_nonneg_l; lia. }
  clear - H0 LB fM' H. lia.
Qed.
Lemma logk_mono k m n r s : M <= k -> valid c k = true -> valid c m = true -> valid c n = true -> 0 < m -> m <= n ->
  (let* l := fx_log2 c m in fx_div c l k) = Ok r -> (let* l := fx_log2 c n in fx_div c l k) = Ok s -> r <= s.
Proof using All.
  intros K Vk Vm Vn P L Er Es. pose proof HM.
  destruct (log2_shape m Vm P) as (e & x & E & _). destruct (log2_shape n Vn ltac:(lia)) as (e' & x' & E' & _).
  rewrite E in Er. rewrite E' in Es. cbn [bind] in *. pose proof (log2_mono m n _ _ Vm Vn P L E E') as LE.
  rewrite (log_div_eq m _ k Vm P E K Vk) in Er. rewrite (log_div_eq n _ k Vn ltac:(lia) E' K Vk) in Es.
  injection Er as <-. injection Es as <-. apply quot_mono; [lia|]. apply Z.mul_le_mono_nonneg_r; lia.
Qed.
End MONO.

Theorem log_mono c m n r s : std c -> valid c m = true -> valid c n = true -> 0 < m -> m <= n ->
  fx_log c m = Ok r -> fx_log c n = Ok s -> r <= s.
Proof.
  intros HS Vm Vn P L. unfold fx_log. destruct HS as [-> | ->].
  - change (log_log2_e F32) with (@Ok Z 94548). cbn [bind]. apply (logk_mono F32 (or_introl eq_refl)); auto; cbn; lia.
  - change (log_log2_e F64) with (@Ok Z 6196328018). cbn [bind]. apply (logk_mono F64 (or_intror eq_refl)); auto; cbn; lia.
Qed.
Theorem log10_mono c m n r s : std c -> valid c m = true -> valid c n = true -> 0 < m -> m <= n ->
  fx_log10 c m = Ok r -> fx_log10 c n = Ok s -> r <= s.
Proof.
  intros HS Vm Vn P L. unfold fx_log10. destruct HS as [-> | ->].
  - change (log10_log2_10 F32) with (@Ok Z 217705). cbn [bind]. apply (logk_mono F32 (or_introl eq_refl)); auto; cbn; lia.
  - change (log10_log2_10 F64) with (@Ok Z 14267572527). cbn [bind]. apply (logk_mono F64 (or_intror eq_refl)); auto; cbn; lia.
Qed.
