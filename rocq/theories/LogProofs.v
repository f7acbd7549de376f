(** Logarithms (C40, C41). *)
From Coq Require Import ZArith Bool List Lia ZifyBool Reals Lra.
From Verif Require Import Base Fixed Math SpecReal BaseLemmas FixedLemmas CLemmas MathProofs PowProofs RealLemmas StdProofs.
Open Scope Z_scope.

Section LOG.
Variable c : cfg.
Hypothesis HS : std c.
Let t := ct c.
Let i := ci c.
Let M := 2 ^ cf c.

Lemma lg_one : c_shl t 1 (cf c) = Ok M.
Proof.
  unfold t. rewrite s_shl; auto; fold M.
  - rewrite Z.mul_1_l. reflexivity.
  - pose proof (std_f c HS). lia.
  - apply std_valid; auto. fold M. pose proof (std_M c HS). fold M in H. nia.
Qed.
Lemma lg_two : c_shl t 2 (cf c) = Ok (2 * M).
Proof.
  unfold t. rewrite s_shl; auto; fold M.
  - pose proof (std_f c HS). lia.
  - apply std_valid; auto. fold M. pose proof (std_M c HS). fold M in H. nia.
Qed.
Lemma lg_lt x y : valid c x = true -> valid c y = true -> c_lt t (promote t) x y = (x <? y).
Proof.
  intros. unfold t. rewrite std_pt by auto. apply g_lt with t; auto; unfold t; auto using std_t_ok, std_utt.
Qed.
Lemma lg_le x y : valid c x = true -> valid c y = true -> c_le (promote t) t x y = (x <=? y).
Proof.
  intros. unfold t. rewrite std_pt by auto. apply g_le with t; auto; unfold t; auto using std_t_ok, std_utt.
Qed.
Lemma lg_v x : - (M * M) <= 2 * x < M * M -> valid c x = true. Proof. apply std_valid; auto. Qed.
Lemma lg_vi x : valid c x = true -> - (M * M) <= 2 * x < M * M. Proof. apply std_valid; auto. Qed.
Lemma lg_sub x y : valid c x = true -> valid c y = true -> valid c (x - y) = true -> c_sub t (promote t) x y = Ok (x - y).
Proof. intros. unfold t. rewrite std_pt by auto. apply g_sub with t; auto; unfold t; auto using std_t_ok, std_utt. Qed.
Lemma lg_add x y : valid c x = true -> valid c y = true -> valid c (x + y) = true -> c_add t (promote t) x y = Ok (x + y).
Proof. intros. unfold t. rewrite std_pt by auto. apply g_add with t; auto; unfold t; auto using std_t_ok, std_utt. Qed.

(** scaling up: exact doublings *)
Lemma up_ok : forall (n fuel : nat) x y, (n <= fuel)%nat -> 0 < x -> M <= x * 2 ^ Z.of_nat n ->
  valid c x = true -> valid c y = true -> valid c (y - Z.of_nat n * M) = true ->
  exists k, 0 <= k <= Z.of_nat n /\ log2_up fuel c x y = Ok (x * 2 ^ k, y - k * M) /\ M <= x * 2 ^ k /\
    (k = 0 \/ x * 2 ^ k < 2 * M).
Proof.
  pose proof (std_M c HS) as HM. fold M in HM.
  induction n as [|n IH]; intros fuel x y Hf X0 XM Vx Vy Vy'.
  - exists 0. split; [lia|]. change (2 ^ Z.of_nat 0) with 1 in XM.
    assert (E : log2_up fuel c x y = Ok (x, y)).
    { destruct fuel; cbn [log2_up]; fold t; rewrite lg_one; cbn [bind];
        rewrite lg_lt by (auto; apply lg_v; nia); replace (x <? M) with false by lia; reflexivity. }
    rewrite E. change (2 ^ 0) with 1. split; [f_equal; f_equal; lia|]. split; lia.
  - destruct fuel as [|fuel]; [lia|]. cbn [log2_up]. fold t. rewrite lg_one. cbn [bind].
    rewrite lg_lt by (auto; apply lg_v; nia).
    destruct (Z.ltb_spec x M) as [L|L].
    + assert (V2 : valid c (x * 2 ^ 1) = true) by (apply lg_v; change (2 ^ 1) with 2; nia).
      assert (VM : valid c M = true) by (apply lg_v; nia).
      assert (V3 : valid c (y - M) = true).
      { apply lg_vi in Vy, Vy'. apply lg_v. nia. }
      unfold t. rewrite s_shl by (auto; pose proof (std_f c HS); lia). fold t. cbn [bind].
      rewrite lg_sub by auto. cbn [bind]. rewrite !wrap_id by (auto; unfold t; apply std_t_ok; auto).
      change (2 ^ 1) with 2 in *.
      destruct (IH fuel (x * 2) (y - M)) as (k & Hk & E & B1 & B2); auto; try lia.
      { rewrite Nat2Z.inj_succ, Z.pow_succ_r in XM by lia. lia. }
      { replace (y - M - Z.of_nat n * M) with (y - Z.of_nat (S n) * M) by lia. auto. }
      exists (k + 1). rewrite Z.pow_add_r by lia. change (2 ^ 1) with 2.
      split; [lia|]. rewrite E. split; [f_equal; f_equal; ring|]. split; [lia|].
      right. destruct B2 as [->|B2]; [change (2 ^ 0) with 1; lia|lia].
    + exists 0. change (2 ^ 0) with 1. split; [lia|]. split; [f_equal; f_equal; lia|]. split; lia.
Qed.

(** scaling down: truncating halvings *)
Lemma down_ok : forall (n fuel : nat) x y, (n <= fuel)%nat -> M <= x -> x < 2 * M * 2 ^ Z.of_nat n ->
  valid c x = true -> valid c y = true -> valid c (y + Z.of_nat n * M) = true ->
  exists k, 0 <= k <= Z.of_nat n /\ log2_down fuel c x y = Ok (x / 2 ^ k, y + k * M) /\ M <= x / 2 ^ k < 2 * M.
Proof.
  pose proof (std_M c HS) as HM. fold M in HM.
  induction n as [|n IH]; intros fuel x y Hf XM X2 Vx Vy Vy'.
  - exists 0. split; [lia|]. change (2 ^ Z.of_nat 0) with 1 in X2.
    assert (E : log2_down fuel c x y = Ok (x, y)).
    { destruct fuel; cbn [log2_down]; fold t; rewrite lg_one, lg_two; cbn [bind];
        rewrite lg_le by (auto; apply lg_v; nia); replace (2 * M <=? x) with false by lia; reflexivity. }
    rewrite E. change (2 ^ 0) with 1. rewrite Z.div_1_r. split; [f_equal; f_equal; lia|]. lia.
  - destruct fuel as [|fuel]; [lia|]. cbn [log2_down]. fold t. rewrite lg_one, lg_two. cbn [bind].
    rewrite lg_le by (auto; apply lg_v; nia).
    destruct (Z.leb_spec (2 * M) x) as [L|L].
    + assert (V2 : valid c (x / 2 ^ 1) = true).
      { apply lg_vi in Vx. apply lg_v. change (2 ^ 1) with 2. pose proof (Z.div_mod x 2 ltac:(lia)). pose proof (Z.mod_pos_bound x 2 ltac:(lia)). lia. }
      assert (VM : valid c M = true) by (apply lg_v; nia).
      assert (V3 : valid c (y + M) = true).
      { apply lg_vi in Vy, Vy'. apply lg_v. nia. }
      unfold t. rewrite s_shr by (auto; pose proof (std_f c HS); lia). fold t. cbn [bind].
      rewrite lg_add by auto. cbn [bind]. rewrite !wrap_id by (auto; unfold t; apply std_t_ok; auto).
      change (2 ^ 1) with 2 in *.
      assert (XH : x / 2 < 2 * M * 2 ^ Z.of_nat n).
      { apply Z.div_lt_upper_bound; [lia|]. rewrite Nat2Z.inj_succ, Z.pow_succ_r in X2 by lia. lia. }
      destruct (IH fuel (x / 2) (y + M)) as (k & Hk & E & B); auto; try lia.
      { apply Z.div_le_lower_bound; lia. }
      { replace (y + M + Z.of_nat n * M) with (y + Z.of_nat (S n) * M) by lia. auto. }
      rewrite Z.div_div in * by (try lia; apply Z.pow_pos_nonneg; lia).
      exists (k + 1). rewrite Z.pow_add_r by lia. change (2 ^ 1) with 2.
      replace (2 ^ k * 2) with (2 * 2 ^ k) by ring.
      split; [lia|]. rewrite E. split; [f_equal; f_equal; ring|]. exact B.
    + exists 0. change (2 ^ 0) with 1. rewrite Z.div_1_r. split; [lia|]. split; [f_equal; f_equal; lia|]. lia.
Qed.

(** one fraction bit *)
Definition frac_next (z : Z) : Z := if 2 * M <=? z * z / M then z * z / (2 * M) else z * z / M.
Definition frac_bit (z : Z) : Z := if 2 * M <=? z * z / M then 1 else 0.
Lemma frac_next_range z : M <= z < 2 * M -> M <= frac_next z < 2 * M.
Proof.
  pose proof (std_M c HS) as HM. fold M in HM. intros Hz. unfold frac_next.
  assert (z * z / M < 4 * M) by (apply Z.div_lt_upper_bound; nia).
  assert (M <= z * z / M) by (apply Z.div_le_lower_bound; nia).
  destruct (Z.leb_spec (2 * M) (z * z / M)); [|lia].
  rewrite (Z.mul_comm 2 M), <- Z.div_div by lia. split; [apply Z.div_le_lower_bound; lia|apply Z.div_lt_upper_bound; lia].
Qed.

Lemma frac_step k z y b : M <= z < 2 * M -> 0 <= b -> valid c b = true -> valid c y = true -> valid c (y + b) = true ->
  log2_frac (S k) c z y b = log2_frac k c (frac_next z) (y + frac_bit z * b) (b / 2).
Proof.
  pose proof (std_M c HS) as HM. fold M in HM. intros Hz Hb Vb Vy Vyb. pose proof (std_f c HS) as HF.
  cbn [log2_frac]. pose proof lg_two as T2. unfold t in T2. rewrite T2. cbn [bind].
  assert (IR : forall x, 0 <= x <= 4 * M * M -> in_range (ci c) x = true).
  { intros x Hx. apply std_irange; auto. fold M. nia. }
  rewrite (g_mul (ci c) (ci c) (ci c) z z) by (try apply std_i_ok; try apply std_uii; auto; apply IR; nia).
  cbn [bind]. rewrite std_pi by auto. rewrite si_shr by (auto; lia). fold M. cbn [bind].
  assert (ZB : 0 <= z * z / M < 4 * M) by (split; [apply Z.div_pos; nia|apply Z.div_lt_upper_bound; nia]).
  rewrite (wrap_id (ci c) (z * z / M)) by (try apply std_i_ok; auto; apply IR; nia).
  assert (EL : c_le (promote (ct c)) (ci c) (2 * M) (z * z / M) = (2 * M <=? z * z / M)).
  { rewrite std_pt by auto. apply g_le with (ci c); [apply std_i_ok; auto|apply std_uti; auto|apply IR; nia|apply IR; nia]. }
  rewrite EL. unfold frac_next, frac_bit.
  assert (VH : valid c (b / 2) = true).
  { apply lg_vi in Vb. apply lg_v. pose proof (Z.div_mod b 2 ltac:(lia)). pose proof (Z.mod_pos_bound b 2 ltac:(lia)). lia. }
  destruct (2 * M <=? z * z / M).
  - rewrite si_shr by (auto; lia). change (2 ^ 1) with 2. cbn [bind].
    rewrite (g_add (ct c) (ct c) (ct c) y b) by (try apply std_t_ok; try apply std_utt; auto). cbn [bind].
    rewrite s_shr by (auto; lia). change (2 ^ 1) with 2. cbn [bind].
    rewrite Z.div_div by lia. rewrite (Z.mul_comm M 2).
    assert (RH : in_range (ci c) (z * z / (2 * M)) = true) by (apply IR; split; [apply Z.div_pos; nia|apply Z.div_le_upper_bound; nia]).
    rewrite (wrap_id (ci c) (z * z / (2 * M)) (std_i_ok c HS) RH).
    rewrite !wrap_id by (auto; apply std_t_ok; auto). rewrite Z.mul_1_l. reflexivity.
  - cbn [bind]. rewrite s_shr by (auto; lia). change (2 ^ 1) with 2. cbn [bind].
    rewrite wrap_id by (auto; apply std_t_ok; auto). rewrite Z.mul_0_l, Z.add_0_r. reflexivity.
Qed.

Open Scope R_scope.
Let RM := IZR M.
Definition L (z : Z) : R := log2r (IZR z / RM).
Lemma RM_pos : 65536 <= RM. Proof. pose proof (std_M c HS) as HM. fold M in HM. unfold RM. apply IZR_le. lia. Qed.

Lemma L_le z w : (0 < z)%Z -> (z <= w)%Z -> L z <= L w.
Proof.
  intros Hz Hw. unfold L. pose proof RM_pos. assert (0 < / RM) by (apply Rinv_0_lt_compat; lra). apply log2r_mono.
  - apply Rmult_lt_0_compat; auto. apply IZR_lt; auto.
  - apply Rmult_le_compat_r; [lra|]. apply IZR_le; auto.
Qed.
Lemma L_M : L M = 0.
Proof. unfold L. fold RM. pose proof RM_pos. unfold Rdiv. rewrite Rinv_r by lra. unfold log2r. rewrite ln_1. unfold Rdiv. ring. Qed.
Lemma L_2M : L (2 * M) = 1.
Proof. unfold L. rewrite mult_IZR. fold RM. pose proof RM_pos. replace (2 * RM / RM) with 2 by (field; lra). apply log2r_2. Qed.

(** one squaring loses at most one part in z' *)
Lemma L_step z : (M <= z < 2 * M)%Z ->
  L (frac_next z) + IZR (frac_bit z) <= 2 * L z < L (frac_next z) + IZR (frac_bit z) + / (RM * ln 2).
Proof.
  intros Hz. pose proof (frac_next_range z Hz) as NR. pose proof RM_pos as HR. pose proof ln2_pos as H2.
  pose proof (std_M c HS) as HM. fold M in HM.
  assert (Z0 : RM <= IZR z) by (apply IZR_le; lia).
  assert (N0 : RM <= IZR (frac_next z)) by (apply IZR_le; lia).
  set (D := if (2 * M <=? z * z / M)%Z then (2 * M)%Z else M).
  assert (ED : frac_next z = (z * z / D)%Z) by (unfold frac_next, D; destruct (2 * M <=? z * z / M)%Z; reflexivity).
  assert (DP : (0 < D)%Z) by (unfold D; destruct (2 * M <=? z * z / M)%Z; lia).
  assert (DR : 0 < IZR D) by (apply IZR_lt; auto).
  assert (LD : log2r (IZR D) = log2r RM + IZR (frac_bit z)).
  { unfold D, frac_bit. destruct (2 * M <=? z * z / M)%Z.
    - rewrite mult_IZR. rewrite log2r_mult by (fold RM; lra). rewrite log2r_2. fold RM. ring.
    - fold RM. ring. }
  pose proof (div_real (z * z) D DP) as [D1 D2]. rewrite <- ED in D1, D2. rewrite mult_IZR in D1, D2.
  assert (E2 : 2 * L z = log2r (IZR z * IZR z / IZR D) - log2r RM + IZR (frac_bit z)).
  { unfold L. rewrite !log2r_div, log2r_mult by nra. rewrite LD. ring. }
  assert (EN : L (frac_next z) = log2r (IZR (frac_next z)) - log2r RM) by (unfold L; apply log2r_div; lra).
  rewrite E2, EN. split.
  - apply Rplus_le_compat_r. apply Rplus_le_compat_r. apply log2r_mono; lra.
  - assert (log2r (IZR z * IZR z / IZR D) < log2r (IZR (frac_next z)) + / (RM * ln 2)); [|lra].
    apply Rlt_le_trans with (log2r (IZR (frac_next z) + 1)).
    + unfold log2r. apply Rmult_lt_compat_r; [apply Rinv_0_lt_compat; auto|]. apply ln_increasing; lra.
    + replace (IZR (frac_next z) + 1) with (IZR (frac_next z) * (1 + / IZR (frac_next z))) by (field; lra).
      assert (0 < / IZR (frac_next z)) by (apply Rinv_0_lt_compat; lra).
      rewrite log2r_mult by lra. apply Rplus_le_compat_l.
      apply Rle_trans with (/ IZR (frac_next z) / ln 2); [apply log2r_1p; lra|].
      rewrite Rinv_mult. apply Rmult_le_compat_r; [left; apply Rinv_0_lt_compat; auto|].
      apply Rinv_le_contravar; lra.
Qed.

Lemma frac_ok : forall (k : nat) z y, (M <= z < 2 * M)%Z -> (Z.of_nat k <= cf c)%Z ->
  (- (M * M) <= 2 * y /\ 2 * (y + 2 ^ Z.of_nat k) <= M * M)%Z ->
  exists d, log2_frac k c z y (2 ^ Z.of_nat k / 2) = Ok (y + d)%Z /\ (0 <= d < 2 ^ Z.of_nat k)%Z /\
    IZR d <= IZR (2 ^ Z.of_nat k) * L z < IZR d + 1 + (IZR (2 ^ Z.of_nat k) - 1) * / (RM * ln 2).
Proof.
  pose proof (std_M c HS) as HM. fold M in HM.
  induction k as [|k IH]; intros z y Hz Hk Hy.
  - exists 0%Z. cbn [log2_frac]. rewrite Z.add_0_r. split; [reflexivity|]. change (2 ^ Z.of_nat 0)%Z with 1%Z.
    split; [lia|]. rewrite Rmult_1_l. pose proof (L_le M z ltac:(lia) ltac:(lia)) as A. rewrite L_M in A.
    assert (L z < 1).
    { rewrite <- L_2M. unfold L. unfold log2r. pose proof RM_pos. apply Rmult_lt_compat_r; [apply Rinv_0_lt_compat, ln2_pos|].
      apply ln_increasing; [apply Rmult_lt_0_compat; [apply IZR_lt; lia|apply Rinv_0_lt_compat; lra]|].
      apply Rmult_lt_compat_r; [apply Rinv_0_lt_compat; lra|]. apply IZR_lt; lia. }
    change (IZR 0) with 0. change (IZR 1) with 1. lra.
  - rewrite Nat2Z.inj_succ, Z.pow_succ_r in * by lia. replace (2 * 2 ^ Z.of_nat k / 2)%Z with (2 ^ Z.of_nat k)%Z by (rewrite Z.mul_comm, Z.div_mul; lia).
    assert (P : (0 < 2 ^ Z.of_nat k)%Z) by (apply Z.pow_pos_nonneg; lia).
    assert (PM : (2 ^ Z.of_nat k <= M)%Z) by (unfold M; apply Z.pow_le_mono_r; lia).
    rewrite frac_step; auto; try lia; try (apply lg_v; nia).
    pose proof (frac_next_range z Hz) as NR. pose proof (L_step z Hz) as LS.
    assert (FB : (frac_bit z = 0 \/ frac_bit z = 1)%Z) by (unfold frac_bit; destruct (2 * M <=? z * z / M)%Z; auto).
    destruct (IH (frac_next z) (y + frac_bit z * 2 ^ Z.of_nat k)%Z NR ltac:(lia)) as (d & E & D & B).
    { destruct FB as [-> | ->]; lia. }
    exists (frac_bit z * 2 ^ Z.of_nat k + d)%Z. split; [rewrite E; f_equal; lia|].
    split; [destruct FB as [-> | ->]; lia|].
    rewrite plus_IZR, !mult_IZR.
    assert (RP : 0 < IZR (2 ^ Z.of_nat k)) by (apply IZR_lt; auto).
    set (p := IZR (2 ^ Z.of_nat k)) in *. set (h := / (RM * ln 2)) in *. set (bt := IZR (frac_bit z)) in *.
    set (l := L z) in *. set (l' := L (frac_next z)) in *. set (dd := IZR d) in *.
    split.
    + assert (p * (l' + bt) <= p * (2 * l)) by (apply Rmult_le_compat_l; lra). lra.
    + assert (p * (2 * l) < p * (l' + bt + h)) by (apply Rmult_lt_compat_l; lra). lra.
Qed.

(** the whole function *)
Lemma frac_start : c_shl uint32 1 (cf c - 1) = Ok (2 ^ (cf c - 1))%Z.
Proof. destruct HS as [-> | ->]; reflexivity. Qed.

Theorem log2_main m : valid c m = true -> (0 < m)%Z ->
  exists r, fx_log2 c m = Ok r /\ (- (cf c * M) <= r < cf c * M)%Z /\
    IZR r <= RM * log2r (rval (cf c) m) < IZR r + 1 + 2 / ln 2.
Proof.
  intros V P. pose proof (std_M c HS) as HM. fold M in HM. pose proof (std_f c HS) as HF.
  pose proof RM_pos as HR. pose proof ln2_pos as H2.
  assert (fM : (cf c * M <= M * M / 4)%Z) by (unfold M; destruct HS as [-> | ->]; vm_compute; congruence).
  assert (fM' : (4 * (cf c * M) <= M * M)%Z) by (pose proof (Z.mul_div_le (M * M) 4 ltac:(lia)); lia).
  unfold fx_log2. rewrite frac_start. cbn [bind].
  assert (EM : (2 ^ (cf c - 1) = M / 2)%Z) by (rewrite (std_M2 c HS : M = _); rewrite Z.mul_comm, Z.div_mul; lia).
  rewrite wrap_id.
  2: { apply std_t_ok; auto. } 2: { apply lg_v. rewrite EM. pose proof (Z.mul_div_le M 2 ltac:(lia)). assert (0 <= M / 2)%Z by (apply Z.div_pos; lia). nia. }
  rewrite zero_eq by (apply std_wf; auto). cbn [bind]. rewrite s_le by (auto; apply v0, std_wf; auto).
  replace (m <=? 0)%Z with false by lia.
  (* normalisation *)
  apply lg_vi in V as Vm.
  assert (NV : forall x, (- (cf c * M) <= x <= cf c * M)%Z -> valid c x = true) by (intros x Hx; apply lg_v; clear - Hx fM' HM HF; nia).
  destruct (up_ok (Z.to_nat (cf c)) 128 m 0) as (k1 & K1 & E1 & U1 & U2); auto; try lia.
  { rewrite Z2Nat.id by lia. fold M. nia. }
  { apply NV. nia. }
  { apply NV. rewrite Z2Nat.id by lia. nia. }
  rewrite Z2Nat.id in K1 by lia. rewrite E1. cbn [bind].
  assert (P1 : (0 < 2 ^ k1)%Z) by (apply Z.pow_pos_nonneg; lia).
  assert (V1 : valid c (m * 2 ^ k1) = true).
  { destruct U2 as [-> |U2]; [change (2 ^ 0)%Z with 1%Z; rewrite Z.mul_1_r; auto|apply lg_v; nia]. }
  destruct (down_ok (Z.to_nat (cf c)) 128 (m * 2 ^ k1) (0 - k1 * M)) as (k2 & K2 & E2 & U3); auto; try lia.
  { rewrite Z2Nat.id by lia. fold M. apply lg_vi in V1. nia. }
  { apply NV. nia. }
  { apply NV. rewrite Z2Nat.id by lia. nia. }
  rewrite Z2Nat.id in K2 by lia. rewrite E2. cbn [bind].
  set (x := (m * 2 ^ k1 / 2 ^ k2)%Z) in *.
  assert (P2 : (0 < 2 ^ k2)%Z) by (apply Z.pow_pos_nonneg; lia).
  assert (KK : k1 = 0%Z \/ k2 = 0%Z).
  { destruct U2 as [->|U2]; [auto|]. right. destruct (Z.eq_dec k2 0); auto. exfalso.
    assert (2 <= 2 ^ k2)%Z by (change 2%Z with (2 ^ 1)%Z at 1; apply Z.pow_le_mono_r; lia).
    assert (x < M)%Z; [|lia]. apply Z.div_lt_upper_bound; nia. }
  rewrite (wrap_id (ci c) x) by (try apply std_i_ok; auto; apply std_irange; auto; fold M; nia).
  (* fraction bits *)
  assert (EF : Z.of_nat (Z.to_nat (cf c)) = cf c) by (apply Z2Nat.id; lia).
  pose proof (frac_ok (Z.to_nat (cf c)) x (0 - k1 * M + k2 * M)%Z U3) as FR. rewrite EF in FR. fold M in FR.
  destruct FR as (d & E3 & D & B); [lia|destruct KK as [-> | ->]; nia|].
  rewrite EM. rewrite E3. cbn [bind]. unfold from_internal_value.
  exists (0 - k1 * M + k2 * M + d)%Z. split; [reflexivity|].
  assert (XI : IZR x <= IZR (m * 2 ^ k1) / IZR (2 ^ k2) < IZR x + 1) by (apply div_real; auto).
  assert (X1 : RM <= IZR x) by (apply IZR_le; lia).
  set (X := IZR (m * 2 ^ k1) / IZR (2 ^ k2)) in *.
  assert (EX : log2r (rval (cf c) m) = log2r (X / RM) - IZR k1 + IZR k2).
  { unfold X, rval. fold M. fold RM. rewrite mult_IZR.
    assert (0 < IZR m) by (apply IZR_lt; auto).
    assert (0 < IZR (2 ^ k1)) by (apply IZR_lt; auto). assert (0 < IZR (2 ^ k2)) by (apply IZR_lt; auto).
    rewrite (log2r_div (IZR m)) by lra. rewrite (log2r_div (_ / _)) by (first [assumption|lra|apply Rdiv_lt_0_compat; [apply Rmult_lt_0_compat|]; assumption]).
    rewrite log2r_div by (first [assumption|lra|apply Rmult_lt_0_compat; assumption]). rewrite log2r_mult by lra. rewrite !log2r_pow2 by lia. ring. }
  assert (LX : L x <= log2r (X / RM) < L x + / (RM * ln 2)).
  { unfold L. rewrite !(log2r_div _ RM) by lra. split.
    - apply Rplus_le_compat_r. apply log2r_mono; lra.
    - assert (log2r X < log2r (IZR x) + / (RM * ln 2)); [|lra].
      apply Rlt_le_trans with (log2r (IZR x + 1)).
      + unfold log2r. apply Rmult_lt_compat_r; [apply Rinv_0_lt_compat; auto|]. apply ln_increasing; lra.
      + replace (IZR x + 1) with (IZR x * (1 + / IZR x)) by (field; lra).
        assert (0 < / IZR x) by (apply Rinv_0_lt_compat; lra).
        rewrite log2r_mult by lra. apply Rplus_le_compat_l.
        apply Rle_trans with (/ IZR x / ln 2); [apply log2r_1p; lra|].
        rewrite Rinv_mult. apply Rmult_le_compat_r; [left; apply Rinv_0_lt_compat; auto|].
        apply Rinv_le_contravar; lra. }
  split.
  - assert (k2 < cf c)%Z; [|destruct KK as [-> | ->]; nia].
    destruct KK as [K0 | ->]; [|lia]. apply (Z.pow_lt_mono_r_iff 2); [lia|lia|]. fold M.
    assert (x * 2 ^ k2 <= m)%Z; [|nia]. unfold x. rewrite K0. change (2 ^ 0)%Z with 1%Z. rewrite Z.mul_1_r.
    rewrite Z.mul_comm. apply Z.mul_div_le; auto.
  - rewrite EX, !plus_IZR, minus_IZR, !mult_IZR. fold RM. fold RM in B.
    assert (HH : RM * / (RM * ln 2) = / ln 2) by (field; lra).
    assert (HI : 0 < / ln 2) by (apply Rinv_0_lt_compat; auto).
    assert (Hh : 0 < / (RM * ln 2)) by (apply Rinv_0_lt_compat; nra).
    set (h := / (RM * ln 2)) in *. set (l := log2r (X / RM)) in *. set (l0 := L x) in *. set (dd := IZR d) in *.
    assert (A1 : RM * l0 <= RM * l) by (apply Rmult_le_compat_l; lra).
    assert (A2 : RM * l < RM * (l0 + h)) by (apply Rmult_lt_compat_l; lra).
    unfold Rdiv. change (IZR 0) with 0. lra.
Qed.

Theorem log2_domain m : valid c m = true -> (fx_log2 c m = Throw domain_error <-> (m <= 0)%Z).
Proof.
  intros V. split.
  - intros E. destruct (Z.le_gt_cases m 0); auto. destruct (log2_main m V H) as (r & E' & _). congruence.
  - intros H. unfold fx_log2. rewrite frac_start. cbn [bind].
    rewrite zero_eq by (apply std_wf; auto). cbn [bind]. rewrite s_le by (auto; apply v0, std_wf; auto).
    replace (m <=? 0)%Z with true by (clear - H; lia). reflexivity.
Qed.
End LOG.
