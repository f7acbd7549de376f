(** Proofs about detail/util.hpp and detail/perf.hpp (C91-C93, C110-C114). *)
From Coq Require Import ZArith QArith Bool List Lia.
From Verif Require Import Base BaseLemmas Fixed Spec SpecLemmas Math Cordic CordicProofs Util.
Import ListNotations.
Open Scope Z_scope.

(** ---- eval_value ---- *)
Lemma lor_add r k b : 0 <= k -> r mod 2 ^ (k + 1) = 0 -> b = 2 ^ k -> Z.lor r b = r + b.
Proof.
  intros K R ->. rewrite Z.add_nocarry_lxor.
  - symmetry. apply Z.bits_inj'. intros n N. rewrite Z.lxor_spec, Z.lor_spec. destruct (Z.eq_dec n k) as [->|NE].
    + replace (Z.testbit r k) with false; [destruct (Z.testbit (2 ^ k) k); reflexivity|].
      rewrite <- (Z.mod_pow2_bits_low r (k + 1) k) by lia. rewrite R. symmetry. apply Z.bits_0.
    + rewrite Z.pow2_bits_false by auto. destruct (Z.testbit r n); reflexivity.
  - apply Z.bits_inj'. intros n N. rewrite Z.land_spec, Z.bits_0. destruct (Z.eq_dec n k) as [->|NE].
    + replace (Z.testbit r k) with false; [reflexivity|].
      rewrite <- (Z.mod_pow2_bits_low r (k + 1) k) by lia. rewrite R. symmetry. apply Z.bits_0.
    + rewrite (Z.pow2_bits_false k n) by auto. apply andb_false_r.
Qed.
Lemma big_uac64 t : big t -> bits t <= 64 -> uac t int64 = int64.
Proof.
  intros B H. pose proof B as (K & B32 & S). unfold uac. rewrite big_promote by auto. change (promote int64) with int64. rewrite S. cbn [sgn bits int64 Bool.eqb].
  destruct (Z.ltb_spec (bits t) 64); [reflexivity|]. destruct t as [b s]. cbn [bits sgn] in *. assert (b = 64) by lia. subst. reflexivity.
Qed.
Lemma eval_bits_eq t k f : big t -> bits t <= 64 -> 0 <= k -> 0 <= f < bits t -> forall todo i frac r,
  i = f + 1 - Z.of_nat todo -> 1 <= i -> 0 <= frac < 2 ^ (k + Z.of_nat todo) -> r mod 2 ^ Z.of_nat todo = 0 -> 0 <= r <= 2 ^ f - 2 ^ Z.of_nat todo ->
  eval_bits t k f todo i frac r = Ok (r + frac / 2 ^ k).
Proof.
  intros B B64 K F. pose proof B as (OK & B32 & S).
  assert (MX : maxv t = 2 ^ (bits t - 1) - 1) by (unfold maxv; rewrite S; reflexivity).
  assert (MN : minv t = - 2 ^ (bits t - 1)) by (unfold minv; rewrite S; reflexivity).
  pose proof (Z.pow_le_mono_r 2 f (bits t - 1) ltac:(lia) ltac:(lia)) as PF.
  pose proof (Z.pow_le_mono_r 2 f 63 ltac:(lia) ltac:(lia)) as PF2.
  induction todo as [|todo IH]; intros i frac r I I1 FR RM RR.
  - cbn [eval_bits]. rewrite Z.add_0_r in FR. rewrite Z.div_small by lia. f_equal. lia.
  - cbn [eval_bits]. rewrite Nat2Z.inj_succ in *. replace (i - 1 <? bits t) with true by lia.
    set (w := Z.of_nat todo) in *. assert (W : 0 <= w) by (unfold w; lia). replace (k + f - i) with (k + w) by lia. replace (f - i) with w by lia.
    pose proof (Z.pow_pos_nonneg 2 w ltac:(lia) W) as PW. pose proof (Z.pow_pos_nonneg 2 k ltac:(lia) K) as PK.
    rewrite (Z.pow_succ_r 2 w) in RM, RR by lia. rewrite Z.add_succ_r, Z.pow_succ_r in FR by lia.
    assert (RD : exists q, r = 2 * 2 ^ w * q) by (apply Z.mod_divide in RM; [|lia]; destruct RM as [q ->]; exists q; lia). destruct RD as [q RD].
    assert (WM : w <= f) by lia. pose proof (Z.pow_le_mono_r 2 w f ltac:(lia) WM) as PWF.
    cbv zeta. destruct (Z.leb_spec (2 ^ (k + w)) frac) as [C|C].
    + unfold c_shl. cbv zeta. change (promote int64) with int64. cbn [bits int64]. replace ((0 <=? w) && (w <? 64)) with true by lia. cbn [bind].
      rewrite Z.shiftl_1_l. rewrite (big_uac64 t B B64). 
      assert (W1 : wrap int64 r = r) by (apply wrap_id; [reflexivity|]; apply in_range_iff; change (minv int64) with (- 2 ^ 63); change (maxv int64) with (2 ^ 63 - 1); lia).
      assert (W2 : wrap int64 (2 ^ w) = 2 ^ w) by (apply wrap_id; [reflexivity|]; apply in_range_iff; change (minv int64) with (- 2 ^ 63); change (maxv int64) with (2 ^ 63 - 1); lia).
      rewrite W1, W2. rewrite (lor_add r w (2 ^ w)) by (auto; rewrite Z.pow_add_r by lia; change (2 ^ 1) with 2; rewrite Z.mul_comm; exact RM).
      rewrite big_wrap by (auto; lia). rewrite IH; try lia.
      * f_equal. replace frac with (frac - 2 ^ (k + w) + 2 ^ w * 2 ^ k) at 2 by (rewrite Z.pow_add_r by lia; lia).
        rewrite Z.div_add by lia. lia.
      * rewrite RD. replace (2 * 2 ^ w * q + 2 ^ w) with ((2 * q + 1) * 2 ^ w) by ring. apply Z.mod_mul. lia.
    + rewrite IH; try lia; [reflexivity|]. rewrite RD. replace (2 * 2 ^ w * q) with ((2 * q) * 2 ^ w) by ring. apply Z.mod_mul. lia.
Qed.
Lemma eval_nonneg t n k f r : big t -> bits t <= 64 -> 0 <= k -> 0 <= f < bits t -> 0 <= n -> r = n * 2 ^ f / 2 ^ k -> r <= maxv t ->
  eval_value t n k f = Ok r.
Proof.
  intros B B64 K F N -> R. pose proof (Z.pow_pos_nonneg 2 k ltac:(lia) K) as PK. pose proof (Z.pow_pos_nonneg 2 f ltac:(lia) ltac:(lia)) as PF.
  assert (MN : minv t <= 0) by (unfold minv; destruct (sgn t); [pose proof (Z.pow_pos_nonneg 2 (bits t - 1)); destruct B as (_ & ? & _); lia|lia]).
  unfold eval_value, float_to_int. cbv zeta. rewrite Z.quot_div_nonneg by lia.
  pose proof (Z.div_mod n (2 ^ k) ltac:(lia)) as D. pose proof (Z.mod_pos_bound n (2 ^ k) PK) as M. set (p := n / 2 ^ k) in *. set (s := n mod 2 ^ k) in *.
  assert (P0 : 0 <= p) by (apply Z.div_pos; lia).
  assert (E : n * 2 ^ f / 2 ^ k = p * 2 ^ f + s * 2 ^ f / 2 ^ k).
  { rewrite D. replace ((2 ^ k * p + s) * 2 ^ f) with (s * 2 ^ f + (p * 2 ^ f) * 2 ^ k) by ring. rewrite Z.div_add by lia. lia. }
  assert (Q0 : 0 <= s * 2 ^ f / 2 ^ k < 2 ^ f) by (split; [apply Z.div_pos; nia|apply Z.div_lt_upper_bound; nia]).
  replace (in_range t p) with true by (symmetry; apply in_range_iff; nia). cbn [bind].
  replace ((n - p * 2 ^ k) * 2 ^ f) with (s * 2 ^ f) by (rewrite D; ring).
  rewrite eval_bits_eq; auto; rewrite ?Z2Nat.id by lia; try lia.
  - cbn [bind]. unfold c_shl. cbv zeta. rewrite big_promote by auto. replace ((0 <=? f) && (f <? bits t)) with true by lia. cbn [bind].
    rewrite Z.shiftl_mul_pow2 by lia. rewrite (big_wrap t (p * 2 ^ f)) by (auto; nia).
    rewrite Z.add_0_l, big_add by (auto; nia). cbn [bind]. rewrite big_wrap by (auto; nia). f_equal. lia.
  - rewrite Z.pow_add_r by lia. nia.
Qed.
Lemma eval_neg t n k f r : big t -> bits t <= 64 -> 0 <= k -> 0 <= f < bits t -> n < 0 -> r = Z.quot n (2 ^ k) * 2 ^ f -> minv t <= r ->
  eval_value t n k f = Ok r.
Proof.
  intros B B64 K F N -> R. pose proof (Z.pow_pos_nonneg 2 k ltac:(lia) K) as PK. pose proof (Z.pow_pos_nonneg 2 f ltac:(lia) ltac:(lia)) as PF.
  assert (MX : 0 < maxv t) by (pose proof B as (O & ? & S); unfold maxv; rewrite S; pose proof (Z.pow_le_mono_r 2 1 (bits t - 1)); lia).
  unfold eval_value, float_to_int. cbv zeta. set (p := Z.quot n (2 ^ k)) in *.
  pose proof (Z.quot_rem' n (2 ^ k)) as D. fold p in D. pose proof (Z.rem_bound_pos_neg n (2 ^ k) ltac:(lia) ltac:(lia)) as M.
  assert (P0 : p <= 0) by nia. replace (in_range t p) with true by (symmetry; apply in_range_iff; nia). cbn [bind].
  assert (FR : (n - p * 2 ^ k) * 2 ^ f <= 0) by (apply Z.mul_nonpos_nonneg; lia).
  assert (EB : forall todo i, 1 <= i -> i + Z.of_nat todo = f + 1 -> eval_bits t k f todo i ((n - p * 2 ^ k) * 2 ^ f) 0 = Ok 0).
  { induction todo as [|todo IH]; intros i I1 I2; [reflexivity|]. cbn [eval_bits]. replace (i - 1 <? bits t) with true by lia. cbv zeta.
    pose proof (Z.pow_pos_nonneg 2 (k + f - i) ltac:(lia) ltac:(lia)). destruct (Z.leb_spec (2 ^ (k + f - i)) ((n - p * 2 ^ k) * 2 ^ f)); [lia|].
    apply IH; lia. }
  rewrite EB by lia. cbn [bind]. unfold c_shl. cbv zeta. rewrite big_promote by auto. replace ((0 <=? f) && (f <? bits t)) with true by lia. cbn [bind].
  rewrite Z.shiftl_mul_pow2 by lia. rewrite (big_wrap t (p * 2 ^ f)) by (auto; nia).
  rewrite big_add by (auto; nia). cbn [bind]. rewrite big_wrap by (auto; nia). f_equal.
Qed.
Lemma C92_lemma t n k f r : big t -> bits t <= 64 -> 0 <= k -> 0 <= f < bits t -> 0 <= n -> is_floor f (qval k n) r -> fits (bits t) (sgn t) r ->
  eval_value t n k f = Ok r.
Proof.
  intros B B64 K F N FL FT. apply eval_nonneg; auto.
  - unfold qval in FL. apply is_floor_iff in FL; [|lia]. rewrite pow2p_pos in FL by lia. exact FL.
  - apply FT.
Qed.
Lemma C110_lemma t n k f r p : big t -> bits t <= 64 -> 0 <= k -> 0 <= f < bits t -> n < 0 -> is_trunc 0 (qval k n) p -> r = p * 2 ^ f ->
  fits (bits t) (sgn t) r -> eval_value t n k f = Ok r.
Proof.
  intros B B64 K F N FL E FT. apply eval_neg; auto.
  - apply is_trunc_int in FL; [|lia]. subst. reflexivity.
  - apply FT.
Qed.

(** ---- BBP ---- *)
Lemma in128 x : - 2 ^ 127 <= x <= 2 ^ 127 - 1 -> in_range int128 x = true.
Proof. intros. apply in_range_iff. change (minv int128) with (- 2 ^ 127). change (maxv int128) with (2 ^ 127 - 1). lia. Qed.
Lemma w128 x : - 2 ^ 127 <= x <= 2 ^ 127 - 1 -> wrap int128 x = x.
Proof. intros. apply wrap_id; [reflexivity|apply in128; auto]. Qed.
Lemma div16_eq n : forall x, 0 <= x < 2 ^ 64 -> div16 n x = Ok (x / 16 ^ Z.of_nat n).
Proof.
  induction n as [|n IH]; intros x X. { cbn [div16]. rewrite Z.div_1_r. reflexivity. }
  cbn [div16]. unfold c_div. cbv zeta. change (uac int128 int32) with int128. rewrite (w128 x), (w128 16) by lia. cbn [Z.eqb].
  rewrite Z.quot_div_nonneg by lia. assert (D : 0 <= x / 16 <= x) by (split; [apply Z.div_pos; lia|apply Z.div_le_upper_bound; lia]).
  unfold arith. cbn [sgn int128]. rewrite in128 by lia. cbn [bind]. rewrite w128 by lia. rewrite IH by lia.
  rewrite Nat2Z.inj_succ, Z.pow_succ_r by lia. rewrite Z.div_div by lia. reflexivity.
Qed.
Lemma m32 x : - 2 ^ 31 <= x <= 2 ^ 31 - 1 -> wrap int32 x = x.
Proof. intros. apply wrap_id; [reflexivity|]. apply in_range_iff. exact H. Qed.
Lemma i32 x : - 2 ^ 31 <= x <= 2 ^ 31 - 1 -> in_range int32 x = true.
Proof. intros. apply in_range_iff. exact H. Qed.
Lemma bbp_factor f k : 0 <= f <= 63 -> 0 <= k < 2 ^ 29 ->
  c_mul int32 int32 4 k = Ok (4 * k) /\ div16 (Z.to_nat (4 * k)) (wrap int128 (wrap int128 (Z.shiftl 1 f))) = Ok (2 ^ f / 16 ^ (4 * k)).
Proof.
  intros F K. split.
  - unfold c_mul. cbv zeta. change (uac int32 int32) with int32. rewrite (m32 4), (m32 k) by lia. unfold arith. cbn [sgn int32]. rewrite i32 by lia. reflexivity.
  - rewrite Z.shiftl_1_l. assert (0 < 2 ^ f < 2 ^ 64) by (split; [apply Z.pow_pos_nonneg; lia|apply Z.pow_lt_mono_r; lia]).
    rewrite !(w128 (2 ^ f)) by lia. rewrite div16_eq by lia. rewrite Z2Nat.id by lia. reflexivity.
Qed.
Lemma bbp_zero f k : 0 <= f <= 63 -> 4 <= k < 2 ^ 28 -> bbp_term f k = Ok 0.
Proof.
  intros F K. destruct (bbp_factor f k F ltac:(lia)) as [E1 E2].
  unfold bbp_term, c_shl. cbv zeta. change (promote int128) with int128. replace ((0 <=? f) && (f <? bits int128)) with true by (cbn [bits int128]; lia). cbn [bind].
  rewrite E1. cbn [bind]. rewrite E2. cbn [bind].
  replace (2 ^ f / 16 ^ (4 * k)) with 0.
  2:{ symmetry. apply Z.div_small. split; [apply Z.pow_nonneg; lia|]. change 16 with (2 ^ 4). rewrite <- Z.pow_mul_r by lia. apply Z.pow_lt_mono_r; lia. }
  assert (Q : forall a b, - 2 ^ 31 <= a <= 2 ^ 31 - 1 -> 1 <= b <= 6 ->
     (let* n := c_mul int32 int128 a 0 in let* d := c_mul int32 int32 8 k in let* d := c_add int32 int32 d b in let* q := c_div int128 int32 n d in Ok (wrap int128 q)) = Ok 0).
  { intros a b A B. unfold c_mul. cbv zeta. change (uac int32 int128) with int128. change (uac int32 int32) with int32.
    rewrite (w128 a), (w128 0) by lia. rewrite Z.mul_0_r. unfold arith at 1. cbn [sgn int128]. rewrite in128 by lia. cbn [bind].
    rewrite (m32 8), (m32 k) by lia. unfold arith at 1. cbn [sgn int32]. rewrite i32 by lia. cbn [bind]. unfold c_add. cbv zeta. change (uac int32 int32) with int32.
    rewrite (m32 (8 * k)), (m32 b) by lia. unfold arith at 1. cbn [sgn int32]. rewrite i32 by lia. cbn [bind]. unfold c_div. cbv zeta. change (uac int128 int32) with int128.
    rewrite (w128 0), (w128 (8 * k + b)) by lia. destruct (Z.eqb_spec (8 * k + b) 0); [lia|]. rewrite Z.quot_0_l by lia. reflexivity. }
  rewrite !Q by lia. cbn [bind]. reflexivity.
Qed.
Lemma bbp_ub f k : 0 <= f <= 63 -> k = 2 ^ 28 -> bbp_term f k = UB.
Proof.
  intros F HK. assert (KR : 0 <= k < 2 ^ 29) by lia. destruct (bbp_factor f k F KR) as [E1 E2].
  assert (G : 0 <= 2 ^ f / 16 ^ (4 * k) <= 2 ^ 63).
  { pose proof (Z.pow_pos_nonneg 16 (4 * k) ltac:(lia) ltac:(clear - KR; lia)) as P. pose proof (Z.pow_nonneg 2 f ltac:(lia)) as PN.
    pose proof (Z.pow_le_mono_r 2 f 63 ltac:(lia) ltac:(lia)) as PM.
    revert P. generalize (16 ^ (4 * k)). clear - PN PM. intros z P. split; [apply Z.div_pos; lia|].
    apply Z.le_trans with (2 ^ f); [|exact PM]. apply Z.div_le_upper_bound; [lia|]. nia. }
  revert E2 G. generalize (2 ^ f / 16 ^ (4 * k)). intros g E2 G.
  unfold bbp_term, c_shl. cbv zeta. change (promote int128) with int128. replace ((0 <=? f) && (f <? bits int128)) with true by (cbn [bits int128]; lia). cbn [bind].
  rewrite E1. cbn [bind]. rewrite E2. cbn [bind].
  assert (M : c_mul int32 int128 4 g = Ok (4 * g)).
  { unfold c_mul. cbv zeta. change (uac int32 int128) with int128. rewrite (w128 4), (w128 g) by lia. unfold arith. cbn [sgn int128]. rewrite in128 by lia. reflexivity. }
  rewrite M. cbn [bind]. rewrite HK. replace (c_mul int32 int32 8 (2 ^ 28)) with (@UB Z) by (vm_compute; reflexivity). reflexivity.
Qed.
Lemma bbp_tail f : 0 <= f <= 63 -> forall n k s, 4 <= k -> - 2 ^ 127 <= s <= 2 ^ 127 - 1 ->
  bbp_loop f k n s = if k + Z.of_nat n <=? 2 ^ 28 then Ok s else if k <=? 2 ^ 28 then UB else bbp_loop f k n s.
Proof.
  intros F. induction n as [|n IH]; intros k s K S.
  - cbn [bbp_loop]. destruct (Z.leb_spec (k + Z.of_nat 0) (2 ^ 28)); [reflexivity|]. destruct (Z.leb_spec k (2 ^ 28)); [lia|reflexivity].
  - destruct (Z.leb_spec k (2 ^ 28)) as [KL|KL]; [|destruct (Z.leb_spec (k + Z.of_nat (Datatypes.S n)) (2 ^ 28)); [lia|reflexivity]].
    cbn [bbp_loop]. destruct (Z.eq_dec k (2 ^ 28)) as [->|NE].
    + rewrite bbp_ub by auto. cbn [bind]. destruct (Z.leb_spec (2 ^ 28 + Z.of_nat (Datatypes.S n)) (2 ^ 28)); [lia|reflexivity].
    + rewrite bbp_zero by lia. cbn [bind]. unfold c_add. cbv zeta. change (uac int128 int128) with int128. rewrite (w128 s), (w128 0) by lia.
      unfold arith. cbn [sgn int128]. rewrite Z.add_0_r. rewrite in128 by lia. cbn [bind]. rewrite w128 by lia. rewrite IH by lia.
      replace (k + 1 + Z.of_nat n) with (k + Z.of_nat (Datatypes.S n)) by lia. replace (k + 1 <=? 2 ^ 28) with true by lia. reflexivity.
Qed.
Lemma bbp_split f n m k s : bbp_loop f k (n + m) s = let* s' := bbp_loop f k n s in bbp_loop f (k + Z.of_nat n) m s'.
Proof.
  revert k s. induction n as [|n IH]; intros k s. { cbn [bbp_loop plus bind]. f_equal. lia. }
  cbn [bbp_loop plus]. destruct (bbp_term f k); cbn [bind]; auto. destruct (c_add int128 int128 s a); cbn [bind]; auto.
  rewrite IH. destruct (bbp_loop f (k + 1) n (wrap int128 a0)); cbn [bind]; auto. f_equal. lia.
Qed.
Definition bbp_limit := 7224979316002670606.
Lemma bbp_value N : 4 <= N -> bbp_calc_pi 61 N = if N <=? 2 ^ 28 then Ok bbp_limit else UB.
Proof.
  intros H. unfold bbp_calc_pi. replace (Z.to_nat N) with (4 + Z.to_nat (N - 4))%nat by lia. rewrite bbp_split.
  replace (bbp_loop 61 0 4 0) with (@Ok Z bbp_limit) by (vm_compute; reflexivity). cbn [bind]. change (0 + Z.of_nat 4) with 4.
  rewrite bbp_tail by (unfold bbp_limit; lia). rewrite Z2Nat.id by lia. replace (4 + (N - 4)) with N by lia. change (4 <=? 2 ^ 28) with true. cbv iota.
  destruct (N <=? 2 ^ 28); cbn [bind]; [|reflexivity]. vm_compute. reflexivity.
Qed.
Lemma bbp_small : bbp_calc_pi 61 1 = Ok 7224974762202907717 /\ bbp_calc_pi 61 2 = Ok 7224979315980003464 /\ bbp_calc_pi 61 3 = Ok 7224979316002670436.
Proof. repeat split; vm_compute; reflexivity. Qed.
