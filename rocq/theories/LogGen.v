(** log2 for every signed instantiation with a 32-bit store and at most 26 fraction bits or a 64-bit store and at most 32. *)
From Coq Require Import ZArith Bool List Lia ZifyBool Reals Lra.
From Verif Require Import Base Fixed Math SpecReal BaseLemmas FixedLemmas CLemmas MathProofs PowProofs RealLemmas StdProofs.
Open Scope Z_scope.

Definition log_cfg (c : cfg) : Prop := wf c = true /\ sgn (ct c) = true /\
  (bits (ct c) = 32 /\ cf c <= 26 \/ bits (ct c) = 64 /\ cf c <= 32).

(** the number of units per integer; the store holds the integers in [-bz, bz) *)
Definition mz (c : cfg) : Z := 2 ^ cf c.
Definition bz (c : cfg) : Z := 2 ^ (bits (ct c) - 1).

Section LOG.
Variable c : cfg.
Hypothesis HS : log_cfg c.
Let t := ct c.
Let i := ci c.
Notation M := (mz c).
Notation B0 := (bz c).

Lemma lc_types : (ct c = int32 /\ (ci c = int64 \/ ci c = int128) /\ 1 <= cf c <= 26) \/ (ct c = int64 /\ ci c = int128 /\ 1 <= cf c <= 32).
Proof.
  destruct HS as (W & S & R). unfold wf in W. destruct c as [[w s] [wi si] f r]. cbn in *. subst s.
  unfold ity_ok in W. cbn [bits sgn] in W. unfold int32, int64, int128.
  assert (si = true) by (destruct si; [reflexivity|exfalso; lia]). subst si.
  destruct R as [[-> R]|[-> R]].
  - left. split; [reflexivity|]. assert (wi = 64 \/ wi = 128) as [-> | ->] by lia; (split; [auto|lia]).
  - right. split; [reflexivity|]. assert (wi = 128) by lia. subst wi. split; [reflexivity|lia].
Qed.
Ltac tys := unfold t, i; destruct lc_types as [(E1 & [E2|E2] & E3)|(E1 & E2 & E3)]; rewrite ?E1, ?E2.
Lemma lc_wf : wf c = true. Proof. apply HS. Qed.
Lemma lc_t_ok : ity_ok t = true. Proof. tys; reflexivity. Qed.
Lemma lc_i_ok : ity_ok i = true. Proof. tys; reflexivity. Qed.
Lemma lc_pt : promote t = t. Proof. tys; reflexivity. Qed.
Lemma lc_pi : promote i = i. Proof. tys; reflexivity. Qed.
Lemma lc_utt : uac t t = t. Proof. tys; reflexivity. Qed.
Lemma lc_uii : uac i i = i. Proof. tys; reflexivity. Qed.
Lemma lc_uti : uac t i = i. Proof. tys; reflexivity. Qed.
Lemma lc_f : 1 <= cf c <= 32. Proof. tys; lia. Qed.
Lemma lc_fb : cf c + 5 <= bits (ct c) - 1. Proof. tys; cbn; lia. Qed.
Lemma lc_bits : bits (ct c) <= 64. Proof. tys; cbn; lia. Qed.
Lemma lc_M : 2 <= M <= 4294967296.
Proof.
  pose proof lc_f as F. unfold mz. split.
  - change 2 with (2 ^ 1) at 1. apply Z.pow_le_mono_r; lia.
  - change 4294967296 with (2 ^ 32). apply Z.pow_le_mono_r; lia.
Qed.
Lemma lc_M2 : M = 2 * 2 ^ (cf c - 1).
Proof. unfold mz. pose proof lc_f. rewrite <- Z.pow_succ_r by lia. f_equal. lia. Qed.
Lemma lc_B : 32 * M <= B0.
Proof.
  unfold mz, bz. pose proof lc_fb. pose proof lc_f. change 32 with (2 ^ 5). rewrite <- Z.pow_add_r by lia.
  apply Z.pow_le_mono_r; lia.
Qed.
(** logarithms fit: f and w - f are at most B / M *)
Lemma lc_room : (cf c + 1) * M <= B0 /\ (bits (ct c) - cf c) * M <= B0.
Proof.
  pose proof lc_f as F. pose proof lc_fb as FB. assert (MP : 0 < M) by (unfold mz; apply Z.pow_pos_nonneg; lia).
  set (n := bits (ct c) - 1 - cf c).
  assert (E : B0 = 2 ^ n * M) by (unfold bz, mz, n; rewrite <- Z.pow_add_r by lia; f_equal; lia).
  assert (G : n + 1 <= 2 ^ n) by (pose proof (Z.pow_gt_lin_r 2 n ltac:(lia) ltac:(lia)); lia).
  assert (G2 : cf c + 1 <= 2 ^ n).
  { destruct lc_types as [(E1 & _ & E3)|(E1 & _ & E3)].
    - assert (5 <= n) by lia. assert (2 ^ 5 <= 2 ^ n) by (apply Z.pow_le_mono_r; lia). change (2 ^ 5) with 32 in *. lia.
    - assert (31 <= n) by (unfold n; rewrite E1; cbn [bits int64]; lia).
      assert (2 ^ 31 <= 2 ^ n) by (apply Z.pow_le_mono_r; lia). change (2 ^ 31) with 2147483648 in *. lia. }
  rewrite E. split; apply Z.mul_le_mono_nonneg_r; try lia.
Qed.
Lemma lc_valid x : valid c x = true <-> - B0 <= x < B0.
Proof.
  unfold valid, bz. rewrite in_range_iff. tys; cbn [bits int32 int64].
  - change (minv int32) with (-2147483648). change (maxv int32) with 2147483647. change (2 ^ (32 - 1)) with 2147483648. lia.
  - change (minv int32) with (-2147483648). change (maxv int32) with 2147483647. change (2 ^ (32 - 1)) with 2147483648. lia.
  - change (minv int64) with (-9223372036854775808). change (maxv int64) with 9223372036854775807.
    change (2 ^ (64 - 1)) with 9223372036854775808. lia.
Qed.
Lemma lc_irange x : 0 <= x <= 4 * M * M -> in_range (ci c) x = true.
Proof.
  intros H. apply in_range_iff. unfold mz in H.
  destruct lc_types as [(E1 & E2 & E3)|(E1 & E2 & E3)].
  - assert (2 ^ cf c <= 2 ^ 26) by (apply Z.pow_le_mono_r; lia). assert (0 < 2 ^ cf c) by (apply Z.pow_pos_nonneg; lia).
    change (2 ^ 26) with 67108864 in *.
    assert (x <= 4 * 67108864 * 67108864) by nia.
    assert (minv (ci c) <= -9223372036854775808 /\ 9223372036854775807 <= maxv (ci c)).
    { destruct E2 as [-> | ->]; split; vm_compute; congruence. }
    lia.
  - rewrite E2. assert (2 ^ cf c <= 2 ^ 32) by (apply Z.pow_le_mono_r; lia). assert (0 < 2 ^ cf c) by (apply Z.pow_pos_nonneg; lia).
    change (2 ^ 32) with 4294967296 in *.
    assert (x <= 4 * 4294967296 * 4294967296) by nia.
    change (minv int128) with (-170141183460469231731687303715884105728). change (maxv int128) with 170141183460469231731687303715884105727. lia.
Qed.
Lemma lc_shl x n : 0 <= n <= 32 -> n < bits (ct c) -> valid c (x * 2 ^ n) = true -> c_shl t x n = Ok (x * 2 ^ n).
Proof.
  intros H H2 V. unfold c_shl. rewrite lc_pt. fold t in H2.
  replace ((0 <=? n) && (n <? bits t)) with true by (clear - H H2; lia).
  rewrite shiftl_mul by (clear - H; lia). rewrite wrap_id; auto. apply lc_t_ok.
Qed.
Lemma lc_shr x n : 0 <= n < bits (ct c) -> c_shr t x n = Ok (x / 2 ^ n).
Proof.
  intros H. unfold c_shr. rewrite lc_pt. fold t in H.
  replace ((0 <=? n) && (n <? bits t)) with true by (clear - H; lia).
  rewrite shiftr_div by (clear - H; lia). reflexivity.
Qed.
Lemma lci_shr x n : 0 <= n <= 32 -> c_shr i x n = Ok (x / 2 ^ n).
Proof.
  intros H. unfold c_shr. rewrite lc_pi.
  replace ((0 <=? n) && (n <? bits i)) with true by (assert (64 <= bits i) by (tys; cbn; lia); clear - H H0; lia).
  rewrite shiftr_div by (clear - H; lia). reflexivity.
Qed.

Lemma lg_one : c_shl t 1 (cf c) = Ok M.
Proof.
  rewrite lc_shl; fold M.
  - rewrite Z.mul_1_l. reflexivity.
  - pose proof lc_f. lia.
  - pose proof lc_fb. lia.
  - apply lc_valid. pose proof lc_B. pose proof lc_M. lia.
Qed.
Lemma lg_two : c_shl t 2 (cf c) = Ok (2 * M).
Proof.
  rewrite lc_shl; fold M; auto.
  - pose proof lc_f. lia.
  - pose proof lc_fb. lia.
  - apply lc_valid. pose proof lc_B. pose proof lc_M. lia.
Qed.
Lemma lg_lt x y : valid c x = true -> valid c y = true -> c_lt t (promote t) x y = (x <? y).
Proof. intros. rewrite lc_pt. apply g_lt with t; auto using lc_t_ok, lc_utt. Qed.
Lemma lg_le x y : valid c x = true -> valid c y = true -> c_le (promote t) t x y = (x <=? y).
Proof. intros. rewrite lc_pt. apply g_le with t; auto using lc_t_ok, lc_utt. Qed.
Lemma lg_v x : - B0 <= x < B0 -> valid c x = true. Proof. apply lc_valid. Qed.
Lemma lg_vi x : valid c x = true -> - B0 <= x < B0. Proof. apply lc_valid. Qed.
Lemma lg_sub x y : valid c x = true -> valid c y = true -> valid c (x - y) = true -> c_sub t (promote t) x y = Ok (x - y).
Proof. intros. rewrite lc_pt. apply g_sub with t; auto using lc_t_ok, lc_utt. Qed.
Lemma lg_add x y : valid c x = true -> valid c y = true -> valid c (x + y) = true -> c_add t (promote t) x y = Ok (x + y).
Proof. intros. rewrite lc_pt. apply g_add with t; auto using lc_t_ok, lc_utt. Qed.

(** scaling up: exact doublings *)
Lemma up_ok : forall (n fuel : nat) x y, (n <= fuel)%nat -> 0 < x -> M <= x * 2 ^ Z.of_nat n ->
  valid c x = true -> valid c y = true -> valid c (y - Z.of_nat n * M) = true ->
  exists k, 0 <= k <= Z.of_nat n /\ log2_up fuel c x y = Ok (x * 2 ^ k, y - k * M) /\ M <= x * 2 ^ k /\
    (k = 0 \/ x * 2 ^ k < 2 * M).
Proof.
  pose proof lc_M as HM. pose proof lc_B as HB. pose proof lc_fb as FB.
  induction n as [|n IH]; intros fuel x y Hf X0 XM Vx Vy Vy'.
  - exists 0. split; [lia|]. change (2 ^ Z.of_nat 0) with 1 in XM.
    assert (E : log2_up fuel c x y = Ok (x, y)).
    { destruct fuel; cbn [log2_up]; fold t; rewrite lg_one; cbn [bind];
        rewrite lg_lt by (auto; apply lg_v; lia); replace (x <? M) with false by lia; reflexivity. }
    rewrite E. change (2 ^ 0) with 1. split; [f_equal; f_equal; lia|]. split; lia.
  - destruct fuel as [|fuel]; [lia|]. cbn [log2_up]. fold t. rewrite lg_one. cbn [bind].
    rewrite lg_lt by (auto; apply lg_v; lia).
    destruct (Z.ltb_spec x M) as [L|L].
    + assert (V2 : valid c (x * 2 ^ 1) = true) by (apply lg_v; change (2 ^ 1) with 2; lia).
      assert (VM : valid c M = true) by (apply lg_v; lia).
      assert (V3 : valid c (y - M) = true).
      { apply lg_vi in Vy, Vy'. apply lg_v. nia. }
      rewrite lc_shl by (auto; pose proof lc_f; lia). cbn [bind].
      rewrite lg_sub by auto. cbn [bind]. rewrite !wrap_id by (auto; apply lc_t_ok).
      change (2 ^ 1) with 2 in *.
      destruct (IH fuel (x * 2) (y - M)) as (k & Hk & E & B1 & B2); auto; try lia.
      { rewrite Nat2Z.inj_succ, Z.pow_succ_r in XM by lia. lia. }
      { replace (y - M - Z.of_nat n * M) with (y - Z.of_nat (S n) * M) by lia. auto. }
      exists (k + 1). rewrite Z.pow_add_r by lia. change (2 ^ 1) with 2.
      split; [lia|]. rewrite E. split; [f_equal; f_equal; ring|]. split; [lia|].
      right. destruct B2 as [->|B2]; [change (2 ^ 0) with 1; lia|lia].
    + exists 0. change (2 ^ 0) with 1. split; [lia|]. split; [f_equal; f_equal; lia|]. split; lia.
Qed.

(** scaling down: truncating halvings *)
Lemma down_ok : forall (n fuel : nat) x y, (n <= fuel)%nat -> M <= x -> x < 2 * M * 2 ^ Z.of_nat n ->
  valid c x = true -> valid c y = true -> valid c (y + Z.of_nat n * M) = true ->
  exists k, 0 <= k <= Z.of_nat n /\ log2_down fuel c x y = Ok (x / 2 ^ k, y + k * M) /\ M <= x / 2 ^ k < 2 * M.
Proof.
  pose proof lc_M as HM. pose proof lc_B as HB. pose proof lc_fb as FB.
  induction n as [|n IH]; intros fuel x y Hf XM X2 Vx Vy Vy'.
  - exists 0. split; [lia|]. change (2 ^ Z.of_nat 0) with 1 in X2.
    assert (E : log2_down fuel c x y = Ok (x, y)).
    { destruct fuel; cbn [log2_down]; fold t; rewrite lg_one, lg_two; cbn [bind];
        rewrite lg_le by (auto; apply lg_v; lia); replace (2 * M <=? x) with false by lia; reflexivity. }
    rewrite E. change (2 ^ 0) with 1. rewrite Z.div_1_r. split; [f_equal; f_equal; lia|]. lia.
  - destruct fuel as [|fuel]; [lia|]. cbn [log2_down]. fold t. rewrite lg_one, lg_two. cbn [bind].
    rewrite lg_le by (auto; apply lg_v; lia).
    destruct (Z.leb_spec (2 * M) x) as [L|L].
    + assert (V2 : valid c (x / 2 ^ 1) = true).
      { apply lg_vi in Vx. apply lg_v. change (2 ^ 1) with 2. pose proof (Z.div_mod x 2 ltac:(lia)). pose proof (Z.mod_pos_bound x 2 ltac:(lia)). lia. }
      assert (VM : valid c M = true) by (apply lg_v; lia).
      assert (V3 : valid c (y + M) = true).
      { apply lg_vi in Vy, Vy'. apply lg_v. nia. }
      rewrite lc_shr by (pose proof lc_f; lia). cbn [bind].
      rewrite lg_add by auto. cbn [bind]. rewrite !wrap_id by (auto; apply lc_t_ok).
      change (2 ^ 1) with 2 in *.
      assert (XH : x / 2 < 2 * M * 2 ^ Z.of_nat n).
      { apply Z.div_lt_upper_bound; [lia|]. rewrite Nat2Z.inj_succ, Z.pow_succ_r in X2 by lia. lia. }
      destruct (IH fuel (x / 2) (y + M)) as (k & Hk & E & B); auto; try lia.
      { apply Z.div_le_lower_bound; lia. }
      { replace (y + M + Z.of_nat n * M) with (y + Z.of_nat (S n) * M) by lia. auto. }
      rewrite Z.div_div in * by (try lia; apply Z.pow_pos_nonneg; lia).
      exists (k + 1). rewrite Z.pow_add_r by lia. change (2 ^ 1) with 2.
      replace (2 ^ k * 2) with (2 * 2 ^ k) by ring.
      split; [lia|]. rewrite E. split; [f_equal; f_equal; ring|]. exact B.
    + exists 0. change (2 ^ 0) with 1. rewrite Z.div_1_r. split; [lia|]. split; [f_equal; f_equal; lia|]. lia.
Qed.

(** one fraction bit *)
Definition frac_next (z : Z) : Z := if 2 * M <=? z * z / M then z * z / (2 * M) else z * z / M.
Definition frac_bit (z : Z) : Z := if 2 * M <=? z * z / M then 1 else 0.
Lemma frac_next_range z : M <= z < 2 * M -> M <= frac_next z < 2 * M.
Proof.
  pose proof lc_M as HM. pose proof lc_B as HB. pose proof lc_fb as FB. intros Hz. unfold frac_next.
  assert (z * z / M < 4 * M) by (apply Z.div_lt_upper_bound; nia).
  assert (M <= z * z / M) by (apply Z.div_le_lower_bound; nia).
  destruct (Z.leb_spec (2 * M) (z * z / M)); [|lia].
  rewrite (Z.mul_comm 2 M), <- Z.div_div by lia. split; [apply Z.div_le_lower_bound; lia|apply Z.div_lt_upper_bound; lia].
Qed.

Lemma frac_step k z y b : M <= z < 2 * M -> 0 <= b -> valid c b = true -> valid c y = true -> valid c (y + b) = true ->
  log2_frac (S k) c z y b = log2_frac k c (frac_next z) (y + frac_bit z * b) (b / 2).
Proof.
  pose proof lc_M as HM. intros Hz Hb Vb Vy Vyb. pose proof lc_f as HF. pose proof lc_fb as FB.
  cbn [log2_frac]. pose proof lg_two as T2. fold t i. rewrite T2. cbn [bind].
  assert (IR : forall x, 0 <= x <= 4 * M * M -> in_range i x = true) by exact lc_irange.
  rewrite (g_mul i i i z z) by (try apply lc_i_ok; try apply lc_uii; auto; apply IR; clear - Hz HM; nia).
  cbn [bind]. rewrite lc_pi. rewrite lci_shr by lia. fold M. cbn [bind].
  assert (ZB : 0 <= z * z / M < 4 * M).
  { clear - Hz HM. split; [apply Z.div_pos; nia|apply Z.div_lt_upper_bound; nia]. }
  assert (R1 : in_range i (z * z / M) = true) by (apply IR; clear - ZB HM; nia).
  rewrite (wrap_id i (z * z / M) lc_i_ok R1).
  assert (EL : c_le (promote t) i (2 * M) (z * z / M) = (2 * M <=? z * z / M)).
  { rewrite lc_pt. apply g_le with i; [apply lc_i_ok|apply lc_uti|apply IR; clear - HM; nia|exact R1]. }
  rewrite EL. unfold frac_next, frac_bit.
  assert (VH : valid c (b / 2) = true).
  { apply lg_vi in Vb. apply lg_v. clear - Vb Hb. pose proof (Z.div_mod b 2 ltac:(lia)). pose proof (Z.mod_pos_bound b 2 ltac:(lia)). lia. }
  destruct (2 * M <=? z * z / M).
  - rewrite lci_shr by lia. change (2 ^ 1) with 2. cbn [bind].
    rewrite (g_add t t t y b) by (try apply lc_t_ok; try apply lc_utt; auto). cbn [bind].
    rewrite lc_shr by lia. change (2 ^ 1) with 2. cbn [bind].
    rewrite Z.div_div by lia. rewrite (Z.mul_comm M 2).
    assert (RH : in_range i (z * z / (2 * M)) = true).
    { apply IR. clear - Hz HM. split; [apply Z.div_pos; nia|apply Z.div_le_upper_bound; nia]. }
    rewrite (wrap_id i (z * z / (2 * M)) lc_i_ok RH).
    rewrite (wrap_id t (y + b) lc_t_ok Vyb), (wrap_id t (b / 2) lc_t_ok VH). rewrite Z.mul_1_l. reflexivity.
  - cbn [bind]. rewrite lc_shr by lia. change (2 ^ 1) with 2. cbn [bind].
    rewrite (wrap_id t (b / 2) lc_t_ok VH). rewrite Z.mul_0_l, Z.add_0_r. reflexivity.
Qed.
Open Scope R_scope.
Definition RM : R := IZR (mz c).
Definition L (z : Z) : R := log2r (IZR z / RM).
Lemma RM_pos : 2 <= RM. Proof. pose proof lc_M as HM. unfold RM. apply IZR_le. lia. Qed.

Lemma L_le z w : (0 < z)%Z -> (z <= w)%Z -> L z <= L w.
Proof.
  intros Hz Hw. unfold L. pose proof RM_pos. assert (0 < / RM) by (apply Rinv_0_lt_compat; lra). apply log2r_mono.
  - apply Rmult_lt_0_compat; auto. apply IZR_lt; auto.
  - apply Rmult_le_compat_r; [lra|]. apply IZR_le; auto.
Qed.
Lemma L_M : L M = 0.
Proof. unfold L. change (IZR (mz c)) with RM. pose proof RM_pos. unfold Rdiv. rewrite Rinv_r by lra. unfold log2r. rewrite ln_1. unfold Rdiv. ring. Qed.
Lemma L_2M : L (2 * M) = 1.
Proof. unfold L. rewrite mult_IZR. change (IZR (mz c)) with RM. pose proof RM_pos. replace (2 * RM / RM) with 2 by (field; lra). apply log2r_2. Qed.

(** one squaring loses at most one part in z' *)
Lemma L_step z : (M <= z < 2 * M)%Z ->
  L (frac_next z) + IZR (frac_bit z) <= 2 * L z < L (frac_next z) + IZR (frac_bit z) + / (RM * ln 2).
Proof.
  intros Hz. pose proof (frac_next_range z Hz) as NR. pose proof RM_pos as HR. pose proof ln2_pos as H2.
  pose proof lc_M as HM.
  assert (Z0 : RM <= IZR z) by (apply IZR_le; lia).
  assert (N0 : RM <= IZR (frac_next z)) by (apply IZR_le; lia).
  set (D := if (2 * M <=? z * z / M)%Z then (2 * M)%Z else M).
  assert (ED : frac_next z = (z * z / D)%Z) by (unfold frac_next, D; destruct (2 * M <=? z * z / M)%Z; reflexivity).
  assert (DP : (0 < D)%Z) by (unfold D; destruct (2 * M <=? z * z / M)%Z; lia).
  assert (DR : 0 < IZR D) by (apply IZR_lt; auto).
  assert (LD : log2r (IZR D) = log2r RM + IZR (frac_bit z)).
  { unfold D, frac_bit. destruct (2 * M <=? z * z / M)%Z.
    - rewrite mult_IZR. rewrite log2r_mult by (change (IZR (mz c)) with RM; lra). rewrite log2r_2. change (IZR (mz c)) with RM. ring.
    - change (IZR (mz c)) with RM. ring. }
  pose proof (div_real (z * z) D DP) as [D1 D2]. rewrite <- ED in D1, D2. rewrite mult_IZR in D1, D2.
  assert (E2 : 2 * L z = log2r (IZR z * IZR z / IZR D) - log2r RM + IZR (frac_bit z)).
  { unfold L. rewrite !log2r_div, log2r_mult by nra. rewrite LD. ring. }
  assert (EN : L (frac_next z) = log2r (IZR (frac_next z)) - log2r RM) by (unfold L; apply log2r_div; lra).
  rewrite E2, EN. split.
  - apply Rplus_le_compat_r. apply Rplus_le_compat_r. apply log2r_mono; lra.
  - assert (log2r (IZR z * IZR z / IZR D) < log2r (IZR (frac_next z)) + / (RM * ln 2)); [|lra].
    apply Rlt_le_trans with (log2r (IZR (frac_next z) + 1)).
    + unfold log2r. apply Rmult_lt_compat_r; [apply Rinv_0_lt_compat; auto|]. apply ln_increasing; lra.
    + replace (IZR (frac_next z) + 1) with (IZR (frac_next z) * (1 + / IZR (frac_next z))) by (field; lra).
      assert (0 < / IZR (frac_next z)) by (apply Rinv_0_lt_compat; lra).
      rewrite log2r_mult by lra. apply Rplus_le_compat_l.
      apply Rle_trans with (/ IZR (frac_next z) / ln 2); [apply log2r_1p; lra|].
      rewrite Rinv_mult. apply Rmult_le_compat_r; [left; apply Rinv_0_lt_compat; auto|].
      apply Rinv_le_contravar; lra.
Qed.

Lemma frac_ok : forall (k : nat) z y, (M <= z < 2 * M)%Z -> (Z.of_nat k <= cf c)%Z ->
  (- B0 <= y /\ y + 2 ^ Z.of_nat k <= B0)%Z ->
  exists d, log2_frac k c z y (2 ^ Z.of_nat k / 2) = Ok (y + d)%Z /\ (0 <= d < 2 ^ Z.of_nat k)%Z /\
    IZR d <= IZR (2 ^ Z.of_nat k) * L z < IZR d + 1 + (IZR (2 ^ Z.of_nat k) - 1) * / (RM * ln 2).
Proof.
  pose proof lc_M as HM.
  induction k as [|k IH]; intros z y Hz Hk Hy.
  - exists 0%Z. cbn [log2_frac]. rewrite Z.add_0_r. split; [reflexivity|]. change (2 ^ Z.of_nat 0)%Z with 1%Z.
    split; [lia|]. rewrite Rmult_1_l. pose proof (L_le M z ltac:(lia) ltac:(lia)) as A. rewrite L_M in A.
    assert (L z < 1).
    { rewrite <- L_2M. unfold L. unfold log2r. pose proof RM_pos. apply Rmult_lt_compat_r; [apply Rinv_0_lt_compat, ln2_pos|].
      apply ln_increasing; [apply Rmult_lt_0_compat; [apply IZR_lt; lia|apply Rinv_0_lt_compat; lra]|].
      apply Rmult_lt_compat_r; [apply Rinv_0_lt_compat; lra|]. apply IZR_lt; lia. }
    change (IZR 0) with 0. change (IZR 1) with 1. lra.
  - rewrite Nat2Z.inj_succ, Z.pow_succ_r in * by lia. replace (2 * 2 ^ Z.of_nat k / 2)%Z with (2 ^ Z.of_nat k)%Z by (rewrite Z.mul_comm, Z.div_mul; lia).
    assert (P : (0 < 2 ^ Z.of_nat k)%Z) by (apply Z.pow_pos_nonneg; lia).
    assert (PM : (2 ^ Z.of_nat k <= M)%Z) by (unfold mz; apply Z.pow_le_mono_r; lia).
    pose proof lc_B as HB. rewrite frac_step; auto; try lia; try (apply lg_v; lia).
    pose proof (frac_next_range z Hz) as NR. pose proof (L_step z Hz) as LS.
    assert (FB : (frac_bit z = 0 \/ frac_bit z = 1)%Z) by (unfold frac_bit; destruct (2 * M <=? z * z / M)%Z; auto).
    destruct (IH (frac_next z) (y + frac_bit z * 2 ^ Z.of_nat k)%Z NR ltac:(lia)) as (d & E & D & B).
    { destruct FB as [-> | ->]; lia. }
    exists (frac_bit z * 2 ^ Z.of_nat k + d)%Z. split; [rewrite E; f_equal; lia|].
    split; [destruct FB as [-> | ->]; lia|].
    rewrite plus_IZR, !mult_IZR.
    assert (RP : 0 < IZR (2 ^ Z.of_nat k)) by (apply IZR_lt; auto).
    set (p := IZR (2 ^ Z.of_nat k)) in *. set (h := / (RM * ln 2)) in *. set (bt := IZR (frac_bit z)) in *.
    set (l := L z) in *. set (l' := L (frac_next z)) in *. set (dd := IZR d) in *.
    split.
    + assert (p * (l' + bt) <= p * (2 * l)) by (apply Rmult_le_compat_l; lra). lra.
    + assert (p * (2 * l) < p * (l' + bt + h)) by (apply Rmult_lt_compat_l; lra). lra.
Qed.

(** the whole function *)
Lemma frac_start : c_shl uint32 1 (cf c - 1) = Ok (2 ^ (cf c - 1))%Z.
Proof.
  pose proof lc_f as F. unfold c_shl. change (promote uint32) with uint32. change (bits uint32) with 32%Z.
  replace ((0 <=? cf c - 1) && (cf c - 1 <? 32))%Z with true by lia. rewrite shiftl_mul by lia. rewrite Z.mul_1_l.
  rewrite wrap_id; [reflexivity|reflexivity|]. apply in_range_iff. change (minv uint32) with 0%Z. change (maxv uint32) with (2 ^ 32 - 1)%Z.
  assert (2 ^ (cf c - 1) <= 2 ^ 31)%Z by (apply Z.pow_le_mono_r; lia). change (2 ^ 31)%Z with 2147483648%Z in *.
  change (2 ^ 32)%Z with 4294967296%Z. assert (0 < 2 ^ (cf c - 1))%Z by (apply Z.pow_pos_nonneg; lia). lia.
Qed.

Theorem log2_main m : valid c m = true -> (0 < m)%Z ->
  exists r, fx_log2 c m = Ok r /\ (- (cf c * M) <= r < (bits (ct c) - 1 - cf c) * M)%Z /\
    IZR r <= RM * log2r (rval (cf c) m) < IZR r + 1 + 2 / ln 2.
Proof.
  intros V P. pose proof lc_M as HM. pose proof lc_f as HF. pose proof lc_fb as FB. pose proof lc_B as HB. destruct lc_room as [RO1 RO2].
  pose proof RM_pos as HR. pose proof ln2_pos as H2.
  unfold fx_log2. rewrite frac_start. cbn [bind].
  assert (EM : (2 ^ (cf c - 1) = M / 2)%Z) by (rewrite lc_M2; rewrite Z.mul_comm, Z.div_mul; lia).
  rewrite wrap_id.
  2: { apply lc_t_ok. } 2: { apply lg_v. rewrite EM. pose proof (Z.mul_div_le M 2 ltac:(lia)). assert (0 <= M / 2)%Z by (apply Z.div_pos; lia). lia. }
  rewrite zero_eq by (apply lc_wf). cbn [bind]. rewrite fx_le_eq by (auto using lc_wf; apply v0, lc_wf).
  replace (m <=? 0)%Z with false by lia.
  (* normalisation *)
  apply lg_vi in V as Vm. set (n := (bits (ct c) - 1 - cf c)%Z) in *.
  assert (EB : (B0 = 2 ^ n * M)%Z) by (unfold bz, mz, n; rewrite <- Z.pow_add_r by lia; f_equal; lia).
  assert (NP : (5 <= n <= 63)%Z) by (pose proof lc_bits; unfold n; lia).
  assert (NV : forall x, (- (cf c * M) <= x <= n * M)%Z -> valid c x = true) by (intros x Hx; apply lg_v; clear - Hx RO1 RO2 HM HF; unfold n in Hx; nia).
  destruct (up_ok (Z.to_nat (cf c)) 128 m 0) as (k1 & K1 & E1 & U1 & U2); auto; try lia.
  { rewrite Z2Nat.id by lia. change (2 ^ cf c)%Z with M. clear - P HM. nia. }
  { apply NV. nia. }
  { apply NV. rewrite Z2Nat.id by lia. nia. }
  rewrite Z2Nat.id in K1 by lia. rewrite E1. cbn [bind].
  assert (P1 : (0 < 2 ^ k1)%Z) by (apply Z.pow_pos_nonneg; lia).
  assert (V1 : valid c (m * 2 ^ k1) = true).
  { destruct U2 as [-> |U2]; [change (2 ^ 0)%Z with 1%Z; rewrite Z.mul_1_r; auto|apply lg_v; nia]. }
  destruct (down_ok (Z.to_nat n) 128 (m * 2 ^ k1) (0 - k1 * M)) as (k2 & K2 & E2 & U3); auto; try lia.
  { rewrite Z2Nat.id by lia. apply lg_vi in V1. clear - V1 EB HM. nia. }
  { apply NV. nia. }
  { apply NV. rewrite Z2Nat.id by lia. nia. }
  rewrite Z2Nat.id in K2 by lia. rewrite E2. cbn [bind].
  set (x := (m * 2 ^ k1 / 2 ^ k2)%Z) in *.
  assert (P2 : (0 < 2 ^ k2)%Z) by (apply Z.pow_pos_nonneg; lia).
  assert (KK : k1 = 0%Z \/ k2 = 0%Z).
  { destruct U2 as [->|U2]; [auto|]. right. destruct (Z.eq_dec k2 0); auto. exfalso.
    assert (2 <= 2 ^ k2)%Z by (change 2%Z with (2 ^ 1)%Z at 1; apply Z.pow_le_mono_r; lia).
    assert (x < M)%Z; [|lia]. apply Z.div_lt_upper_bound; nia. }
  rewrite (wrap_id (ci c) x) by (try apply lc_i_ok; apply lc_irange; clear - U3 HM; nia).
  (* fraction bits *)
  assert (EF : Z.of_nat (Z.to_nat (cf c)) = cf c) by (apply Z2Nat.id; lia).
  pose proof (frac_ok (Z.to_nat (cf c)) x (0 - k1 * M + k2 * M)%Z U3) as FR. rewrite EF in FR. change (2 ^ cf c)%Z with M in FR.
  destruct FR as (d & E3 & D & B); [lia|destruct KK as [-> | ->]; nia|].
  rewrite EM. rewrite E3. cbn [bind]. unfold from_internal_value.
  exists (0 - k1 * M + k2 * M + d)%Z. split; [reflexivity|].
  assert (XI : IZR x <= IZR (m * 2 ^ k1) / IZR (2 ^ k2) < IZR x + 1) by (apply div_real; auto).
  assert (X1 : RM <= IZR x) by (apply IZR_le; lia).
  set (X := IZR (m * 2 ^ k1) / IZR (2 ^ k2)) in *.
  assert (EX : log2r (rval (cf c) m) = log2r (X / RM) - IZR k1 + IZR k2).
  { unfold X, rval. change (IZR (2 ^ cf c)) with RM. rewrite mult_IZR.
    assert (0 < IZR m) by (apply IZR_lt; auto).
    assert (0 < IZR (2 ^ k1)) by (apply IZR_lt; auto). assert (0 < IZR (2 ^ k2)) by (apply IZR_lt; auto).
    rewrite (log2r_div (IZR m)) by lra. rewrite (log2r_div (_ / _)) by (first [assumption|lra|apply Rdiv_lt_0_compat; [apply Rmult_lt_0_compat|]; assumption]).
    rewrite log2r_div by (first [assumption|lra|apply Rmult_lt_0_compat; assumption]). rewrite log2r_mult by lra. rewrite !log2r_pow2 by lia. ring. }
  assert (LX : L x <= log2r (X / RM) < L x + / (RM * ln 2)).
  { unfold L. rewrite !(log2r_div _ RM) by lra. split.
    - apply Rplus_le_compat_r. apply log2r_mono; lra.
    - assert (log2r X < log2r (IZR x) + / (RM * ln 2)); [|lra].
      apply Rlt_le_trans with (log2r (IZR x + 1)).
      + unfold log2r. apply Rmult_lt_compat_r; [apply Rinv_0_lt_compat; auto|]. apply ln_increasing; lra.
      + replace (IZR x + 1) with (IZR x * (1 + / IZR x)) by (field; lra).
        assert (0 < / IZR x) by (apply Rinv_0_lt_compat; lra).
        rewrite log2r_mult by lra. apply Rplus_le_compat_l.
        apply Rle_trans with (/ IZR x / ln 2); [apply log2r_1p; lra|].
        rewrite Rinv_mult. apply Rmult_le_compat_r; [left; apply Rinv_0_lt_compat; auto|].
        apply Rinv_le_contravar; lra. }
  split.
  - assert (k2 < n)%Z; [|destruct KK as [-> | ->]; clear - H D HM K1 K2 HF NP; nia].
    destruct KK as [K0 | ->]; [|lia]. apply (Z.pow_lt_mono_r_iff 2); [lia|lia|].
    assert (x * 2 ^ k2 <= m)%Z; [|nia]. unfold x. rewrite K0. change (2 ^ 0)%Z with 1%Z. rewrite Z.mul_1_r.
    rewrite Z.mul_comm. apply Z.mul_div_le; auto.
  - rewrite EX, !plus_IZR, minus_IZR, !mult_IZR. change (IZR (mz c)) with RM. change (IZR (mz c)) with RM in B.
    assert (HH : RM * / (RM * ln 2) = / ln 2) by (field; lra).
    assert (HI : 0 < / ln 2) by (apply Rinv_0_lt_compat; auto).
    assert (Hh : 0 < / (RM * ln 2)) by (apply Rinv_0_lt_compat; nra).
    set (h := / (RM * ln 2)) in *. set (l := log2r (X / RM)) in *. set (l0 := L x) in *. set (dd := IZR d) in *.
    assert (A1 : RM * l0 <= RM * l) by (apply Rmult_le_compat_l; lra).
    assert (A2 : RM * l < RM * (l0 + h)) by (apply Rmult_lt_compat_l; lra).
    unfold Rdiv. change (IZR 0) with 0. lra.
Qed.

Theorem log2_domain m : valid c m = true -> (fx_log2 c m = Throw domain_error <-> (m <= 0)%Z).
Proof.
  intros V. split.
  - intros E. destruct (Z.le_gt_cases m 0); auto. destruct (log2_main m V H) as (r & E' & _). congruence.
  - intros H. unfold fx_log2. rewrite frac_start. cbn [bind].
    rewrite zero_eq by (apply lc_wf). cbn [bind]. rewrite fx_le_eq by (auto using lc_wf; apply v0, lc_wf).
    replace (m <=? 0)%Z with true by (clear - H; lia). reflexivity.
Qed.
End LOG.
