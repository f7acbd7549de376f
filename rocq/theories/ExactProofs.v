(** Exact values: the random engine's output function, the SSE angle reduction, numeric_limits and the constants of every type. *)
From Coq Require Import ZArith Znumtheory QArith Qreals Bool List Lia Reals Lra.
From Interval Require Import Tactic.
From Verif Require Import Base BaseLemmas Fixed FixedLemmas ConvProofs ArithProofs Spec SpecLemmas SpecReal SpecExact Numbers Math Random RandomProofs Ext ExtProofs RealLemmas NumThms EulerGamma SpecConst.
Import ListNotations.
Open Scope Z_scope.

(** ** random.hpp *)
Lemma pow2_nz p : pcg_ok p = true -> pow2 p <> 0.
Proof. intros H. destruct (pok p H) as (_ & _ & P & _). lia. Qed.
Lemma lxor_i p x : pcg_ok p = true -> 32 <= bits (pu p) -> 0 <= x < pow2 p -> c_xor int32 (pu p) 8 x = Z.lxor 8 x.
Proof.
  intros H L X. unfold c_xor. rewrite (proj2 (uuac_i p H L)). rewrite !uwrap by auto.
  assert (32 <= pow2 p) by (unfold pow2; change 32 with (2 ^ 5); apply Z.pow_le_mono_r; lia).
  rewrite (Z.mod_small 8) by lia. rewrite (Z.mod_small x) by lia. apply Z.mod_small. unfold pow2 in *. apply lxor_lt; lia.
Qed.
Lemma shr_mask p x : pcg_ok p = true -> 32 <= bits (pu p) -> 0 <= x < pow2 p ->
  pl_shr mask_shift (pu p) x (c_xor int32 (pu p) 8 x) = Ok (shifted (bits (pu p)) x) /\ 0 <= shifted (bits (pu p)) x < pow2 p.
Proof.
  intros H L X. rewrite lxor_i by auto. unfold pl_shr, c_shr, mask_shift, shifted. rewrite upromote by auto.
  assert (0 <= Z.lxor 8 x) by (apply Z.lxor_nonneg; lia). pose proof (Z.mod_pos_bound (Z.lxor 8 x) (bits (pu p)) ltac:(lia)) as MB.
  assert (G : 0 < 2 ^ (Z.lxor 8 x mod bits (pu p))) by (apply Z.pow_pos_nonneg; lia).
  split.
  - replace (0 <=? Z.lxor 8 x) with true by (symmetry; apply Z.leb_le; auto). cbn [andb].
    destruct (Z.ltb_spec (Z.lxor 8 x) (bits (pu p))).
    + rewrite Z.mod_small by lia. rewrite Z.shiftr_div_pow2 by lia. reflexivity.
    + rewrite Z.shiftr_div_pow2 by lia. reflexivity.
  - split; [apply Z.div_pos; lia|]. eapply Z.le_lt_trans; [|apply X]. apply Z.div_le_upper_bound; [lia|]. nia.
Qed.
Lemma land_small d : 0 <= d -> 0 <= Z.land d 0x7FFFFFFE <= d.
Proof.
  intros D. split; [apply Z.land_nonneg; lia|]. assert (E : Z.ldiff (Z.land d 0x7FFFFFFE) d = 0) by (apply Z.bits_inj'; intros n N; rewrite Z.ldiff_spec, Z.land_spec, Z.bits_0; destruct (Z.testbit d n), (Z.testbit 2147483646 n); reflexivity).
  apply Z.ldiff_le; auto.
Qed.
Theorem draw_value p e : pcg_ok p = true -> 32 <= bits (pu p) ->
  draw mask_shift p e = Ok (pcg_output (bits (pu p)) (pinc p) (pxor p) (pmix p) ((m_state e * pmul p + m_seed e) mod 2 ^ bits (pu p)),
    {| m_seed := m_seed e; m_state := (m_state e + 1) mod 2 ^ bits (pu p) |}).
Proof.
  intros H L. unfold draw. rewrite gen_key by auto. change (2 ^ bits (pu p)) with (pow2 p). change ((m_state e * pmul p + m_seed e) mod pow2 p) with (key p e).
  assert (NZ := pow2_nz p H). destruct (pok p H) as (_ & S & P & PS & PM & PI & PX & PXO).
  assert (K : 0 <= key p e < pow2 p) by (apply Z.mod_pos_bound; lia). unfold pcg_output. change (2 ^ bits (pu p)) with (pow2 p).
  set (v := key p e) in *. unfold tail, mix_first. destruct (shr_mask p v H L K) as (E1 & B1). rewrite E1. cbn [bind].
  rewrite (uwrap p (shifted (bits (pu p)) v)), (Z.mod_small (shifted (bits (pu p)) v)) by auto. rewrite uadd by auto. cbn [bind]. rewrite uwrap, Z.mod_mod by auto.
  set (a := (shifted (bits (pu p)) v + pinc p) mod pow2 p). assert (A : 0 <= a < pow2 p) by (apply Z.mod_pos_bound; lia). clearbody a.
  unfold xor_step. cbn zeta. destruct (uuac_i p H L) as (U1 & U2).
  assert (CM : c_mul (pu p) int32 a 0x100 = Ok ((a * 256) mod pow2 p)).
  { unfold c_mul. rewrite U1, uarith, !uwrap by auto. rewrite <- Z.mul_mod by auto. reflexivity. }
  rewrite CM. cbn [bind]. rewrite U1.
  assert (AA : 0 <= (a * 256) mod pow2 p < pow2 p) by (apply Z.mod_pos_bound; lia). set (aa := (a * 256) mod pow2 p) in *. clearbody aa.
  assert (XX : c_xor (pu p) (pu p) aa a = Z.lxor aa a).
  { unfold c_xor. rewrite uuac by auto. rewrite !uwrap by auto. rewrite (Z.mod_small aa), (Z.mod_small a) by lia. apply Z.mod_small. unfold pow2 in *. apply lxor_lt; lia. }
  assert (XB : 0 <= Z.lxor aa a < pow2 p) by (unfold pow2 in *; apply lxor_lt; lia).
  rewrite XX. rewrite (uwrap p (Z.lxor aa a)), (Z.mod_small (Z.lxor aa a)) by auto. rewrite umul by auto. cbn [bind]. rewrite uwrap, Z.mod_mod by auto.
  set (b := (Z.lxor aa a * pxor p) mod pow2 p). assert (B : 0 <= b < pow2 p) by (apply Z.mod_pos_bound; lia). clearbody b.
  unfold mix_second. cbn zeta. destruct (shr_mask p b H L B) as (E2 & B2). rewrite E2. cbn [bind].
  rewrite (uwrap p (shifted (bits (pu p)) b)), (Z.mod_small (shifted (bits (pu p)) b)) by auto. rewrite umul by auto. cbn [bind]. rewrite uwrap, Z.mod_mod by auto.
  set (d := (shifted (bits (pu p)) b * pmix p) mod pow2 p). assert (D : 0 <= d < pow2 p) by (apply Z.mod_pos_bound; lia). clearbody d.
  assert (CS : c_shr (pu p) d 8 = Ok (d / 256)).
  { unfold c_shr. rewrite upromote by auto. replace ((0 <=? 8) && (8 <? bits (pu p))) with true by (symmetry; apply andb_true_iff; split; [reflexivity|apply Z.ltb_lt; lia]).
    rewrite Z.shiftr_div_pow2 by lia. reflexivity. }
  assert (G31 : 2 ^ 32 <= pow2 p) by (unfold pow2; apply Z.pow_le_mono_r; lia).
  assert (CA : c_and (pu p) int32 d 2147483646 = Z.land d 2147483646).
  { unfold c_and. rewrite U1, !uwrap by auto. rewrite (Z.mod_small d) by lia. rewrite (Z.mod_small 2147483646) by lia. reflexivity. }
  rewrite CS. cbn [bind]. rewrite CA, upromote by auto. pose proof (land_small d ltac:(lia)) as LS.
  assert (DD : 0 <= d / 256 < pow2 p) by (split; [apply Z.div_pos; lia|apply Z.div_lt_upper_bound; lia]).
  assert (CX : c_xor (pu p) (pu p) (Z.land d 2147483646) (d / 256) = Z.lxor (Z.land d 2147483646) (d / 256)).
  { unfold c_xor. rewrite uuac by auto. rewrite !uwrap by auto. rewrite (Z.mod_small (Z.land d 2147483646)), (Z.mod_small (d / 256)) by lia. apply Z.mod_small. unfold pow2 in *. apply lxor_lt; lia. }
  rewrite CX, uwrap by auto. rewrite Z.mod_small; [reflexivity|]. unfold pow2 in *. apply lxor_lt; lia.
Qed.

(** ** simd_math.hpp *)

(** ** simd_math.hpp *)
Lemma wrap_low32 x : wrap int32 x = low32 x.
Proof. reflexivity. Qed.
Lemma low32_64 a b : a mod 2 ^ 64 = b mod 2 ^ 64 -> low32 a = low32 b.
Proof.
  intros E. unfold low32. f_equal. 
  assert (A : a mod 2 ^ 32 = b mod 2 ^ 32).
  { rewrite (Zmod_div_mod (2 ^ 32) (2 ^ 64) a), (Zmod_div_mod (2 ^ 32) (2 ^ 64) b) by (try reflexivity; exists (2 ^ 32); reflexivity). rewrite E. reflexivity. }
  rewrite (Z.add_mod a), (Z.add_mod b), A by discriminate. reflexivity.
Qed.
Lemma low32_lane x : low32 (lane x) = low32 x.
Proof. apply low32_64. unfold lane, M64. rewrite Z.mod_mod by discriminate. reflexivity. Qed.
Lemma sse_value x : unlane (sse_reduce TP IV (lane x)) = low64 (x - low32 (low32 x * 683565275) * 1216271632).
Proof.
  unfold sse_reduce, mm_mul_epi32, mm_sub, unlane. cbv zeta. rewrite !wrap_low32, !low32_lane.
  change (low32 IV) with 683565275. change (low32 TP) with 1216271632. 
  set (n := low32 (low32 x * 683565275)). change (wrap int64) with low64. unfold low64, lane. f_equal.
  change M64 with (2 ^ 64). rewrite <- Zminus_mod. rewrite Zplus_mod_idemp_l. reflexivity.
Qed.
Lemma reduce2_value x y :
  simd_reduce_angle_2 (x, y) = Ok (low64 (y - low32 (low32 y * 683565275) * 1216271632), low64 (x - low32 (low32 x * 683565275) * 1216271632)).
Proof. unfold simd_reduce_angle_2. rewrite (proj1 consts), (proj2 consts). cbn [bind]. rewrite !sse_value. reflexivity. Qed.

(** ** from_fixed_num_value on a long long literal *)
Lemma div_shift v k : 0 <= v -> 1 <= k -> v / 2 ^ k + v / 2 ^ (k - 1) mod 2 = (v / 2 ^ (k - 1) + 1) / 2.
Proof.
  intros V K. replace (2 ^ k) with (2 ^ (k - 1) * 2) by (change 2 with (2 ^ 1) at 2; rewrite <- Z.pow_add_r by lia; f_equal; lia).
  rewrite <- Z.div_div by (try lia; apply Z.pow_nonzero; lia). set (q := v / 2 ^ (k - 1)). clearbody q.
  pose proof (Z.div_mod q 2 ltac:(lia)). pose proof (Z.mod_pos_bound q 2 ltac:(lia)). pose proof (Z.div_mod (q + 1) 2 ltac:(lia)). pose proof (Z.mod_pos_bound (q + 1) 2 ltac:(lia)). lia.
Qed.
Lemma lit_value c f0 v : wf c = true -> cf c < f0 -> f0 - cf c <= 63 -> 0 <= v < 2 ^ 63 ->
  from_fixed_num_value c f0 int64 v = Ok (wrap (ct c) (if cr c then (v / 2 ^ (f0 - cf c - 1) + 1) / 2 else v / 2 ^ (f0 - cf c))).
Proof.
  intros W F D V. unfold from_fixed_num_value. replace (f0 >? cf c) with true by lia. set (d := f0 - cf c) in *. assert (D1 : 1 <= d) by lia. clearbody d.
  assert (Sh : forall k, 0 <= k <= 63 -> c_shl int64 1 k = Ok (wrap int64 (2 ^ k))).
  { intros k K. unfold c_shl. change (bits (promote int64)) with 64.
    replace ((0 <=? k) && (k <? 64)) with true by lia. rewrite shiftl_mul, Z.mul_1_l by lia. reflexivity. }
  assert (VI : in_range int64 v = true) by (unfold in_range, minv, maxv; cbn [sgn bits int64]; change (2 ^ (64 - 1)) with (2 ^ 63); lia).
  assert (Dv : forall k, 0 <= k <= 63 -> c_div int64 (promote int64) v (wrap int64 (2 ^ k)) = Ok (v / 2 ^ k)).
  { intros k K. destruct (Z.eq_dec k 63) as [->|].
    - unfold c_div. change (uac int64 (promote int64)) with int64. rewrite (wrap_id int64 v) by auto.
      change (wrap int64 (wrap int64 (2 ^ 63))) with (- 2 ^ 63). change (- 2 ^ 63 =? 0) with false. cbv iota.
      rewrite Z.quot_opp_r, Z.quot_small, Z.div_small by lia. reflexivity.
    - pose proof (narrow_quot int64 v k eq_refl VI ltac:(cbn; lia)) as N.
      rewrite Sh in N by lia. cbn [bind] in N. rewrite N. f_equal. apply Z.quot_div_nonneg; [lia|]. apply pow2_pos; lia. }
  rewrite Sh by lia. cbn [bind]. rewrite Dv by lia. cbn [bind]. destruct (cr c); [|reflexivity].
  rewrite Sh by lia. cbn [bind]. rewrite Dv by lia. cbn [bind]. rewrite <- (div_shift v d) by lia.
  assert (P2 : 0 < 2 ^ (d - 1)) by (apply pow2_pos; lia). assert (P3 : 2 <= 2 ^ d) by (change 2 with (2 ^ 1) at 1; apply Z.pow_le_mono_r; lia).
  set (q1 := v / 2 ^ (d - 1)). assert (Q1 : 0 <= q1 <= v) by (split; [apply Z.div_pos; lia|apply Z.div_le_upper_bound; nia]).
  set (q := v / 2 ^ d). assert (Q : 0 <= q <= v / 2) by (split; [apply Z.div_pos; lia|apply Z.div_le_compat_l; lia]).
  assert (Q2 : q < 2 ^ 62) by (eapply Z.le_lt_trans; [apply Q|]; apply Z.div_lt_upper_bound; lia). clearbody q q1.
  assert (I64 : forall z, 0 <= z < 2 ^ 63 -> in_range int64 z = true).
  { intros z Z1. unfold in_range, minv, maxv; cbn [int64 sgn bits]. change (2 ^ (64 - 1)) with (2 ^ 63). lia. }
  assert (R1 : c_rem (promote int64) int32 q1 2 = Ok (q1 mod 2)).
  { unfold c_rem. change (uac (promote int64) int32) with int64. rewrite (wrap_id int64 q1) by (auto; apply I64; lia).
    change (wrap int64 2) with 2. change (2 =? 0) with false. cbv iota.
    replace (in_range int64 (Z.quot q1 2)) with true.
    - cbn [negb andb sgn int64]. rewrite Z.rem_mod_nonneg by lia. reflexivity.
    - symmetry. apply I64. rewrite Z.quot_div_nonneg by lia. split; [apply Z.div_pos; lia|apply Z.div_lt_upper_bound; lia]. }
  rewrite R1. cbn [bind]. pose proof (Z.mod_pos_bound q1 2 ltac:(lia)) as MB.
  unfold c_add. change (uac (promote int64) (promote int64)) with int64. rewrite !(wrap_id int64) by (auto; apply I64; lia).
  unfold arith. cbn [sgn int64]. rewrite I64 by lia. reflexivity.
Qed.

(** ** numeric_limits::epsilon and the constants, for every type *)
Lemma epsilon_value c : wf c = true ->
  exists e, nl_epsilon c = Ok e /\ fx_epsilon c = Ok e /\
    e = (if cr c then 0x5000000000000 / 2 ^ (63 - cf c) + 1 else 2 * (0x5000000000000 / 2 ^ (64 - cf c))) / 2.
Proof.
  intros W. unfold nl_epsilon, fx_epsilon. assert (W' := W). unfold wf in W'. rewrite !andb_true_iff in W'. destruct W' as (((((B & _) & _) & _) & F1) & F2).
  apply Z.leb_le in F1, F2. rewrite lit_value by (auto; try lia). eexists; split; [reflexivity|split; [reflexivity|]].
  assert (OK : ity_ok (ct c) = true) by (unfold ity_ok; lia).
  replace (64 - cf c - 1) with (63 - cf c) by lia. rewrite Z.mul_comm.
  assert (Q1 : 0x5000000000000 / 2 ^ (64 - cf c) <= 0x5000000000000 / 2 ^ (65 - bits (ct c))) by (apply Z.div_le_compat_l; [lia|]; split; [apply pow2_pos; lia|apply Z.pow_le_mono_r; lia]).
  assert (Q2 : 0x5000000000000 / 2 ^ (63 - cf c) <= 0x5000000000000 / 2 ^ (64 - bits (ct c))) by (apply Z.div_le_compat_l; [lia|]; split; [apply pow2_pos; lia|apply Z.pow_le_mono_r; lia]).
  assert (P1 : 0 <= 0x5000000000000 / 2 ^ (64 - cf c)) by (apply Z.div_pos; [lia|apply pow2_pos; lia]).
  assert (P2 : 0 <= 0x5000000000000 / 2 ^ (63 - cf c)) by (apply Z.div_pos; [lia|apply pow2_pos; lia]).
  rewrite !orb_true_iff, !Z.eqb_eq in B.
  assert (X1 : 0x5000000000000 / 2 ^ (65 - bits (ct c)) <= 2 ^ (bits (ct c) - 1) - 1) by (clear - B; destruct B as [[[-> | ->] | ->] | ->]; apply Z.leb_le; vm_compute; reflexivity).
  assert (X2 : (0x5000000000000 / 2 ^ (64 - bits (ct c)) + 1) / 2 <= 2 ^ (bits (ct c) - 1) - 1) by (clear - B; destruct B as [[[-> | ->] | ->] | ->]; apply Z.leb_le; vm_compute; reflexivity).
  assert (MX : 2 ^ (bits (ct c) - 1) - 1 <= maxv (ct c)).
  { unfold maxv. destruct (sgn (ct c)); [lia|]. assert (2 ^ (bits (ct c) - 1) <= 2 ^ bits (ct c)) by (apply Z.pow_le_mono_r; lia). lia. }
  assert (MN : minv (ct c) <= 0) by (unfold minv; destruct (sgn (ct c)); [|lia]; assert (0 < 2 ^ (bits (ct c) - 1)) by (apply pow2_pos; lia); lia).
  destruct (cr c).
  - apply wrap_id; auto. unfold in_range.
    assert (Z1 : (0x5000000000000 / 2 ^ (63 - cf c) + 1) / 2 <= (0x5000000000000 / 2 ^ (64 - bits (ct c)) + 1) / 2) by (apply Z.div_le_mono; lia).
    assert (Z2 : 0 <= (0x5000000000000 / 2 ^ (63 - cf c) + 1) / 2) by (apply Z.div_pos; lia). apply andb_true_iff. split; apply Z.leb_le; lia.
  - rewrite Z.div_mul by lia. apply wrap_id; auto. unfold in_range. apply andb_true_iff. split; apply Z.leb_le; lia.
Qed.

(** floor of x * 2^N gives the floor at every smaller precision *)
Lemma floor_down (x : R) n m k : (0 <= k)%Z -> (0 <= n)%Z -> (IZR m <= x * IZR (2 ^ (n + k)) < IZR m + 1)%R ->
  (IZR (m / 2 ^ k) <= x * IZR (2 ^ n) < IZR (m / 2 ^ k) + 1)%R.
Proof.
  intros K N (L & U). rewrite Z.pow_add_r, mult_IZR in * by lia. assert (P : 0 < 2 ^ k) by (apply pow2_pos; lia).
  pose proof (Z.div_mod m (2 ^ k) ltac:(lia)) as E. pose proof (Z.mod_pos_bound m (2 ^ k) P) as B. set (q := m / 2 ^ k) in *. set (r := m mod 2 ^ k) in *.
  assert (PR : (0 < IZR (2 ^ k))%R) by (apply IZR_lt; auto). set (y := (x * IZR (2 ^ n))%R). rewrite <- Rmult_assoc in L, U. fold y in L, U.
  assert (L2 : (IZR (2 ^ k * q) <= IZR m)%R) by (apply IZR_le; lia). assert (U2 : (IZR m + 1 <= IZR (2 ^ k * (q + 1)))%R) by (rewrite <- plus_IZR; apply IZR_le; lia).
  rewrite mult_IZR in L2, U2. rewrite plus_IZR in U2. split; [apply Rmult_le_reg_l with (IZR (2 ^ k)); auto; lra|apply Rmult_lt_reg_l with (IZR (2 ^ k)); auto; lra].
Qed.
Lemma const_every c f0 v N (x : R) : wf c = true -> 0 <= v < 2 ^ 63 -> 0 <= N < f0 -> f0 - cf c <= 63 -> cf c <= N ->
  (IZR (v / 2 ^ (f0 - N)) <= x * IZR (2 ^ N) < IZR (v / 2 ^ (f0 - N)) + 1)%R ->
  (x + ulp (cf c) <= rval (cf c) (maxv (ct c)))%R ->
  (cr c = false -> trunc_const (cf c) (from_fixed_num_value c f0 int64 v) x) /\
  (cr c = true -> cf c < N -> exists m, from_fixed_num_value c f0 int64 v = Ok m /\ (Rabs (rval (cf c) m - x) <= ulp (cf c) / 2)%R).
Proof.
  intros W V NF D F FL RM. assert (W' := W). unfold wf in W'. rewrite !andb_true_iff in W'. destruct W' as (((((B & _) & _) & _) & F1) & F2).
  apply Z.leb_le in F1, F2. assert (OK : ity_ok (ct c) = true) by (unfold ity_ok; lia).
  assert (PR : (0 < IZR (2 ^ cf c))%R) by (apply IZR_lt, pow2_pos; lia).
  assert (MN : minv (ct c) <= 0) by (unfold minv; destruct (sgn (ct c)); [|lia]; assert (0 < 2 ^ (bits (ct c) - 1)) by (apply pow2_pos; lia); lia).
  assert (PV : forall k, 0 <= k -> 0 <= v / 2 ^ k) by (intros k K; apply Z.div_pos; [lia|apply pow2_pos; lia]).
  assert (FD : forall f, 0 <= f <= N -> (IZR (v / 2 ^ (f0 - f)) <= x * IZR (2 ^ f) < IZR (v / 2 ^ (f0 - f)) + 1)%R).
  { intros f Hf. replace (v / 2 ^ (f0 - f)) with (v / 2 ^ (f0 - N) / 2 ^ (N - f)).
    - apply floor_down; try lia. replace (f + (N - f)) with N by lia. exact FL.
    - rewrite Z.div_div by (try apply Z.pow_nonzero; try apply pow2_pos; lia). rewrite <- Z.pow_add_r by lia. do 2 f_equal. lia. }
  assert (RM2 : (x * IZR (2 ^ cf c) + 1 <= IZR (maxv (ct c)))%R).
  { unfold rval, ulp in RM. apply Rmult_le_compat_r with (r := IZR (2 ^ cf c)) in RM; [|lra].
    replace ((x + / IZR (2 ^ cf c)) * IZR (2 ^ cf c))%R with (x * IZR (2 ^ cf c) + 1)%R in RM by (field; lra).
    replace (IZR (maxv (ct c)) / IZR (2 ^ cf c) * IZR (2 ^ cf c))%R with (IZR (maxv (ct c))) in RM by (field; lra). exact RM. }
  rewrite lit_value by (auto; lia). split; intros CR.
  - rewrite CR. pose proof (FD (cf c) ltac:(lia)) as (L & U). specialize (PV (f0 - cf c) ltac:(lia)). set (m := v / 2 ^ (f0 - cf c)) in *.
    assert (M : m <= maxv (ct c)) by (apply le_IZR; lra).
    exists m. split; [f_equal; apply wrap_id; auto; unfold in_range; apply andb_true_iff; split; apply Z.leb_le; lia|].
    unfold rval, ulp. split.
    + apply Rmult_le_reg_r with (IZR (2 ^ cf c)); auto. unfold Rdiv. rewrite Rmult_assoc, Rinv_l by lra. lra.
    + apply Rmult_lt_reg_r with (IZR (2 ^ cf c)); auto. replace ((IZR m / IZR (2 ^ cf c) + / IZR (2 ^ cf c)) * IZR (2 ^ cf c))%R with (IZR m + 1)%R by (field; lra). lra.
  - intros CN. rewrite CR. pose proof (FD (cf c + 1) ltac:(lia)) as (L & U). replace (f0 - (cf c + 1)) with (f0 - cf c - 1) in * by lia.
    specialize (PV (f0 - cf c - 1) ltac:(lia)). set (q := v / 2 ^ (f0 - cf c - 1)) in *. clearbody q.
    rewrite Z.pow_add_r, mult_IZR in L, U by lia. change (IZR (2 ^ 1)) with 2%R in L, U.
    pose proof (Z.div_mod (q + 1) 2 ltac:(lia)) as E. pose proof (Z.mod_pos_bound (q + 1) 2 ltac:(lia)) as MB. set (m := (q + 1) / 2) in *. set (r := (q + 1) mod 2) in *.
    assert (EQ : q = 2 * m + r - 1) by lia. clearbody m r. assert (RR : (0 <= IZR r <= 1)%R) by (split; apply IZR_le; lia).
    rewrite EQ, minus_IZR, plus_IZR, mult_IZR in L, U.
    assert (M : m <= maxv (ct c)) by (apply le_IZR; lra).
    exists m. split; [f_equal; apply wrap_id; auto; unfold in_range; apply andb_true_iff; split; apply Z.leb_le; lia|].
    unfold rval, ulp. replace (IZR m / IZR (2 ^ cf c) - x)%R with ((IZR m - x * IZR (2 ^ cf c)) * / IZR (2 ^ cf c))%R by (field; lra).
    rewrite Rabs_mult, (Rabs_pos_eq (/ _)) by (left; apply Rinv_0_lt_compat; auto). unfold Rdiv. rewrite (Rmult_comm (/ IZR (2 ^ cf c))). apply Rmult_le_compat_r; [left; apply Rinv_0_lt_compat; auto|]. apply Rabs_le. lra.
Qed.
(** the constants of fixed.hpp:201-242 and numbers.hpp with the real numbers they are named after *)
Definition constants (c : cfg) : list (res Z * R) :=
  [(fx_pi c, PI); (fx_e c, exp 1); (fx_pi_2 c, PI / 2); (fx_pi_4 c, PI / 4); (fx_double_pi c, 2 * PI);
   (e_v c, exp 1); (pi_v c, PI); (log2e_v c, / ln 2); (log10e_v c, / ln 10); (inv_pi_v c, / PI); (inv_sqrtpi_v c, / sqrt PI); (ln2_v c, ln 2); (ln10_v c, ln 10);
   (sqrt2_v c, sqrt 2); (sqrt3_v c, sqrt 3); (inv_sqrt3_v c, / sqrt 3); (phi_v c, (1 + sqrt 5) / 2)]%R.
Ltac cst n := intros W F RM; apply (const_every _ _ _ n); auto; try lia;
  match goal with |- (IZR ?a <= _ * IZR ?b < _)%R => let u := eval vm_compute in a in let w := eval vm_compute in b in change a with u; change b with w end;
  split; interval with (i_prec 120).
Lemma constants_every c r x : wf c = true -> In (r, x) (constants c) -> cf c <= 48 -> (x + ulp (cf c) <= rval (cf c) (maxv (ct c)))%R ->
  (cr c = false -> trunc_const (cf c) r x) /\
  (cr c = true -> cf c < 48 -> exists m, r = Ok m /\ (Rabs (rval (cf c) m - x) <= ulp (cf c) / 2)%R).
Proof.
  intros W I. unfold constants in I. cbn [In] in I. revert W.
  assert (1 <= cf c \/ wf c = false) as [F1|E].
  { destruct (wf c) eqn:W; auto. left. unfold wf in W. rewrite !andb_true_iff in W. lia. }
  2:{ intros W. rewrite W in E. discriminate. }
  repeat (destruct I as [I|I]; [injection I as <- <-; cst 48|]). contradiction.
Qed.
(** pi, e and their multiples are good to every bit the type can have *)
Lemma pi_e_every c r x : wf c = true -> In (r, x) (firstn 5 (constants c)) -> cf c <= 59 -> (x + ulp (cf c) <= rval (cf c) (maxv (ct c)))%R ->
  (cr c = false -> trunc_const (cf c) r x) /\
  (cr c = true -> cf c < 59 -> exists m, r = Ok m /\ (Rabs (rval (cf c) m - x) <= ulp (cf c) / 2)%R).
Proof.
  intros W I. unfold constants in I. cbn [In firstn] in I. revert W.
  assert (1 <= cf c \/ wf c = false) as [F1|E].
  { destruct (wf c) eqn:W; auto. left. unfold wf in W. rewrite !andb_true_iff in W. lia. }
  2:{ intros W. rewrite W in E. discriminate. }
  repeat (destruct I as [I|I]; [injection I as <- <-; cst 59|]). contradiction.
Qed.
Lemma egamma_every g c : is_euler_gamma g -> wf c = true -> cf c <= 32 -> (g + ulp (cf c) <= rval (cf c) (maxv (ct c)))%R ->
  (cr c = false -> trunc_const (cf c) (egamma_v c) g) /\
  (cr c = true -> cf c < 32 -> exists m, egamma_v c = Ok m /\ (Rabs (rval (cf c) m - g) <= ulp (cf c) / 2)%R).
Proof.
  intros G W F RM. pose proof (gamma_value g G) as V. assert (F1 : 1 <= cf c) by (unfold wf in W; rewrite !andb_true_iff in W; lia).
  apply (const_every _ _ _ 32); auto; try lia.
  match goal with |- (IZR ?a <= _ * IZR ?b < _)%R => let u := eval vm_compute in a in let w := eval vm_compute in b in change a with u; change b with w end. lra.
Qed.

(** ** when the numeric_limits members are right *)
Lemma epsilon_bounds c e : wf c = true -> nl_epsilon c = Ok e ->
  (cr c = false -> is_floor (cf c) (5 # 65536) e) /\ (cr c = true -> is_nearest (cf c) (5 # 65536) e).
Proof.
  intros W E. destruct (epsilon_value c W) as (e' & E' & _ & V). rewrite E in E'. injection E' as <-.
  assert (F : 1 <= cf c <= 63) by (unfold wf in W; rewrite !andb_true_iff in W; lia). clear E W. subst e.
  set (f := cf c) in *. clearbody f.
  assert (K : f = 1 \/ 1 < f) by lia.
  split; intros CR; rewrite CR.
  - rewrite Z.mul_comm, Z.div_mul by lia.
    assert (L := Z.mul_div_le 0x5000000000000 (2 ^ (64 - f)) ltac:(apply pow2_pos; lia)).
    assert (U := Z.mul_succ_div_gt 0x5000000000000 (2 ^ (64 - f)) ltac:(apply pow2_pos; lia)).
    set (q := 0x5000000000000 / 2 ^ (64 - f)) in *. clearbody q.
    assert (PP : 2 ^ (64 - f) * 2 ^ f = 2 ^ 64) by (rewrite <- Z.pow_add_r by lia; f_equal; lia).
    assert (P1 : 0 < 2 ^ f) by (apply pow2_pos; lia). assert (P2 : 0 < 2 ^ (64 - f)) by (apply pow2_pos; lia).
    unfold is_floor, qval, Qle, Qlt. cbn [Qnum Qden]. rewrite !pow2p_pos by lia. change (2 ^ 64) with 18446744073709551616 in PP.
    split; [apply Z.mul_le_mono_pos_l with (2 ^ (64 - f))|apply Z.mul_lt_mono_pos_l with (2 ^ (64 - f))]; nia.
  - assert (L := Z.mul_div_le 0x5000000000000 (2 ^ (63 - f)) ltac:(apply pow2_pos; lia)).
    assert (U := Z.mul_succ_div_gt 0x5000000000000 (2 ^ (63 - f)) ltac:(apply pow2_pos; lia)).
    set (q := 0x5000000000000 / 2 ^ (63 - f)) in *. clearbody q.
    pose proof (Z.div_mod (q + 1) 2 ltac:(lia)) as DM. pose proof (Z.mod_pos_bound (q + 1) 2 ltac:(lia)) as MB. set (m := (q + 1) / 2) in *. clearbody m.
    assert (PP : 2 ^ (63 - f) * 2 ^ (f + 1) = 2 ^ 64) by (rewrite <- Z.pow_add_r by lia; f_equal; lia).
    assert (P1 : 0 < 2 ^ (f + 1)) by (apply pow2_pos; lia). assert (P2 : 0 < 2 ^ (63 - f)) by (apply pow2_pos; lia).
    unfold is_nearest, qval, Qle, Qlt. cbn [Qnum Qden]. rewrite !pow2p_pos by lia. change (2 ^ 64) with 18446744073709551616 in PP.
    split; apply Z.mul_le_mono_pos_l with (2 ^ (63 - f)); nia.
Qed.
Lemma epsilon_right c : wf c = true -> (nl_epsilon c = Ok 1 <-> cf c = 14 \/ cr c = true /\ cf c = 13).
Proof.
  intros W. destruct (epsilon_value c W) as (e & E & _ & V). rewrite E. assert (F : 1 <= cf c <= 63) by (unfold wf in W; rewrite !andb_true_iff in W; lia).
  clear E W. set (f := cf c) in *. set (b := cr c) in *. clearbody f b.
  assert (T : (e = 1 <-> f = 14 \/ b = true /\ f = 13)).
  { subst e. assert (X : forall b, forallb (fun f => Bool.eqb ((if b : bool then 0x5000000000000 / 2 ^ (63 - f) + 1 else 2 * (0x5000000000000 / 2 ^ (64 - f))) / 2 =? 1) ((f =? 14) || (b && (f =? 13)))) (map Z.of_nat (seq 1 63)) = true) by (intros []; vm_compute; reflexivity).
    specialize (X b). rewrite forallb_forall in X. specialize (X f). rewrite eqb_true_iff in X.
    assert (I : In f (map Z.of_nat (seq 1 63))) by (apply in_map_iff; exists (Z.to_nat f); rewrite Z2Nat.id, in_seq by lia; lia). specialize (X I). clear I.
    rewrite <- Z.eqb_eq, X, orb_true_iff, andb_true_iff, !Z.eqb_eq. reflexivity. }
  rewrite <- T. split; [intros H; injection H; auto|intros ->; reflexivity].
Qed.
Lemma is_signed_right c : wf c = true ->
  ((nl_is_signed c = true <-> exists m, valid c m = true /\ (qval (cf c) m < 0)%Q) <-> sgn (ct c) = true).
Proof.
  intros W. assert (NG : forall m, (qval (cf c) m < 0)%Q <-> m < 0) by (intros m; unfold qval, Qlt; cbn [Qnum Qden]; lia).
  assert (B : 8 <= bits (ct c)) by (unfold wf in W; rewrite !andb_true_iff in W; lia). unfold nl_is_signed. split.
  - intros (H & _). destruct (H eq_refl) as (m & V & M). rewrite NG in M. unfold valid, in_range, minv in V. destruct (sgn (ct c)); [reflexivity|]. lia.
  - intros S. split; auto. intros _. exists (-1). rewrite NG. split; [|lia]. unfold valid, in_range, minv, maxv. rewrite S.
    assert (2 ^ 7 <= 2 ^ (bits (ct c) - 1)) by (apply Z.pow_le_mono_r; lia). change (2 ^ 7) with 128 in *. apply andb_true_iff. split; apply Z.leb_le; lia.
Qed.
Lemma round_style_wrong c : wf c = true -> cr c = false -> sgn (ct c) = true ->
  nl_round_style c = round_toward_zero /\ valid c (-1) = true /\ valid c 1 = true /\ fx_mul c (-1) 1 = Ok (-1) /\
  ~ is_trunc (cf c) (qval (cf c) (-1) * qval (cf c) 1) (-1).
Proof.
  intros W CR S. assert (B : 8 <= bits (ct c) /\ 1 <= cf c) by (unfold wf in W; rewrite !andb_true_iff in W; lia).
  assert (P7 : 128 <= 2 ^ (bits (ct c) - 1)) by (change 128 with (2 ^ 7); apply Z.pow_le_mono_r; lia).
  assert (V : forall m, -128 <= m <= 127 -> valid c m = true) by (intros m M; unfold valid, in_range, minv, maxv; rewrite S; apply andb_true_iff; split; apply Z.leb_le; lia).
  assert (P : 2 <= 2 ^ cf c) by (change 2 with (2 ^ 1) at 1; apply Z.pow_le_mono_r; lia).
  split; [reflexivity|]. split; [apply V; lia|]. split; [apply V; lia|]. split.
  - destruct (mul_thm c (-1) 1 (-1) W CR ltac:(apply V; lia) ltac:(apply V; lia)) as (m & E & VM & _ & FT).
    + unfold is_floor, qval, Qle, Qlt, Qmult. cbn [Qnum Qden]. rewrite !Pos2Z.inj_mul, !pow2p_pos by lia. split; nia.
    + rewrite E, FT; auto. unfold fits, lo, hi. rewrite S. lia.
  - intros (_ & T). assert (N : (qval (cf c) (-1) * qval (cf c) 1 <= 0)%Q) by (unfold Qle; simpl; lia). destruct (T N) as (_ & T1). revert T1.
    unfold qval, Qle, Qmult. cbn [Qnum Qden]. rewrite !Pos2Z.inj_mul, !pow2p_pos by lia. nia.
Qed.
Lemma round_style_unsigned c x y m : wf c = true -> cr c = false -> sgn (ct c) = false -> valid c x = true -> valid c y = true ->
  is_trunc (cf c) (qval (cf c) x * qval (cf c) y) m -> fits (bits (ct c)) false m -> fx_mul c x y = Ok m.
Proof.
  intros W CR S X Y (T & _) F. destruct (mul_thm c x y m W CR X Y) as (m' & E & _ & _ & FT).
  - apply T. unfold valid, in_range, minv in X, Y. rewrite S in X, Y. unfold qval, Qle, Qmult. cbn [Qnum Qden]. nia.
  - rewrite E, FT; auto. rewrite S. exact F.
Qed.
(** ** builtin_ints.hpp: a floating value outside int64_t *)
Lemma xint_float_ub k v n : 0 <= k -> is_trunc 0 (qval k v) n -> ~ fits 64 true n -> xint_of_float (Z.quot v (2 ^ k)) = UB.
Proof.
  intros K T F. unfold qval in T. rewrite is_trunc_iff, pow2p_pos, Z.mul_1_r in T by lia. rewrite <- T. unfold xint_of_float.
  destruct (in_range int64 n) eqn:I; [|reflexivity]. exfalso. apply F. apply in_range_iff in I. exact I.
Qed.
(** ** when over-long shifts give 0, so does every draw *)
Definition tail_zero (p : pcg) (v : Z) : bool := match tail zero_shift p v with Ok r => r =? 0 | _ => false end.
Lemma mix_first_zero p v : pcg_ok p = true -> 32 <= bits (pu p) -> bits (pu p) <= v < pow2 p -> (bits (pu p) = 32 \/ bits (pu p) = 64) -> mix_first zero_shift p v = mix_first zero_shift p (bits (pu p)).
Proof.
  intros H L V B. assert (P : bits (pu p) < pow2 p) by lia.
  assert (S : forall x, bits (pu p) <= x < pow2 p -> pl_shr zero_shift (pu p) x (c_xor int32 (pu p) 8 x) = Ok 0).
  { intros x X. rewrite lxor_i by (auto; lia). unfold pl_shr, c_shr. rewrite upromote by auto.
    assert (G : bits (pu p) <= Z.lxor 8 x).
    { destruct B as [E|E]; rewrite E in *; [apply lxor_big; lia|].
      assert (E2 : Z.shiftr (Z.lxor 8 x) 6 = Z.shiftr x 6) by (rewrite Z.shiftr_lxor; reflexivity).
      rewrite !Z.shiftr_div_pow2 in E2 by lia. change (2 ^ 6) with 64 in E2. assert (1 <= x / 64) by (apply Z.div_le_lower_bound; lia).
      destruct (Z_le_gt_dec 64 (Z.lxor 8 x)); auto. assert (Z.lxor 8 x / 64 < 1) by (apply Z.div_lt_upper_bound; lia). lia. }
    replace ((0 <=? Z.lxor 8 x) && (Z.lxor 8 x <? bits (pu p))) with false by (symmetry; apply andb_false_iff; right; apply Z.ltb_ge; auto). reflexivity. }
  unfold mix_first. cbv zeta. rewrite !S by lia. reflexivity.
Qed.
Lemma tail_small p : pcg_ok p = true -> (bits (pu p) = 32 \/ bits (pu p) = 64) -> forallb (tail_zero p) (map Z.of_nat (seq 0 (S (Z.to_nat (bits (pu p)))))) = true ->
  forall e, draw zero_shift p e = Ok (0, next p e).
Proof.
  intros H B F e. assert (L : 32 <= bits (pu p)) by lia. unfold draw. rewrite gen_key by auto.
  assert (K : 0 <= key p e < pow2 p) by (apply Z.mod_pos_bound; destruct (pok p H) as (_ & _ & P & _); auto).
  rewrite forallb_forall in F.
  assert (T : forall v, 0 <= v <= bits (pu p) -> tail zero_shift p v = Ok 0).
  { intros v V. specialize (F v). assert (I : In v (map Z.of_nat (seq 0 (S (Z.to_nat (bits (pu p))))))) by (apply in_map_iff; exists (Z.to_nat v); rewrite Z2Nat.id, in_seq by lia; lia).
    specialize (F I). unfold tail_zero in F. destruct (tail zero_shift p v); try discriminate. apply Z.eqb_eq in F. subst. reflexivity. }
  assert (E : tail zero_shift p (key p e) = Ok 0).
  { destruct (Z.le_gt_cases (key p e) (bits (pu p))); [apply T; lia|]. rewrite <- (T (bits (pu p)) ltac:(lia)). unfold tail. rewrite mix_first_zero by (auto; lia). reflexivity. }
  rewrite E. reflexivity.
Qed.
Lemma draws_zero p : (forall e, draw zero_shift p e = Ok (0, next p e)) -> forall n e, exists e', draws zero_shift p n e = Ok (repeat 0 n, e').
Proof.
  intros D n. induction n; intros e; cbn [draws repeat]; [eauto|]. rewrite D. cbn [bind snd fst]. destruct (IHn (next p e)) as (e' & ->). cbn [bind fst snd]. eauto.
Qed.
Lemma draws_zero_both n e : (exists e', draws zero_shift pcg2014 n e = Ok (repeat 0 n, e')) /\ (exists e', draws zero_shift pcg2014_64 n e = Ok (repeat 0 n, e')).
Proof. split; apply draws_zero, tail_small; try reflexivity; try (left; reflexivity); try (right; reflexivity); vm_compute; reflexivity. Qed.
Definition U64_49 : cfg := {| ct := uint64; ci := uint128; cf := 49; cr := false |}.
Lemma phi_refuted : wf U64_49 = true /\ phi_v U64_49 = Ok 910872158600853 /\ ((1 + sqrt 5) / 2 < rval 49 910872158600853)%R.
Proof. repeat split. unfold rval. change (IZR (2 ^ 49)) with 562949953421312%R. interval with (i_prec 120). Qed.
