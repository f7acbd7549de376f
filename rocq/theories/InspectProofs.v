(** Proofs about near-comparison, integral/fractional part, sign bit and limits (C21-C24). *)
From Coq Require Import ZArith Bool List Lia ZifyBool QArith Qabs Zquot.
From Verif Require Import Base Fixed Spec BaseLemmas SpecLemmas FixedLemmas ConvProofs ArithProofs ArithProofs2.
Open Scope Z_scope.

(** ** the comparison tolerance *)
Lemma eps_raw c : wf c = true ->
  exists e, nearly_compare_epsilon c = Ok e /\ valid c e = true /\ 0 <= e /\
    (cr c = false -> is_trunc (cf c) (5 # 65536) e) /\
    (cr c = true -> is_nearest_away (cf c) (5 # 65536) e).
Proof.
  intros H. destruct (wf_bnd c H) as (B & Ht & _ & _ & _ & F).
  set (V := 1407374883553280). assert (EV : V = 5 * 2 ^ 48) by reflexivity.
  set (d := 64 - cf c).
  assert (D : 1 <= d <= 63) by lia.
  pose proof (cf_pos c H) as P. pose proof (pow2_pos d ltac:(lia)) as Pd. pose proof (pow2_pos (d - 1) ltac:(lia)) as Pd1.
  assert (Ed : 2 ^ d * 2 ^ cf c = 2 ^ 64) by (rewrite <- Z.pow_add_r by lia; f_equal; lia).
  assert (Ed1 : 2 ^ d = 2 * 2 ^ (d - 1)).
  { replace d with (d - 1 + 1) at 1 by lia. rewrite Z.pow_add_r by lia. lia. }
  set (q := V / 2 ^ d). set (q' := (V + 2 ^ (d - 1)) / 2 ^ d).
  assert (Q0 : 0 <= q) by (apply Z.div_pos; lia).
  assert (Q'0 : 0 <= q') by (apply Z.div_pos; lia).
  assert (W : 2 ^ cf c <= 2 ^ (bits (ct c) - 1)) by (apply Z.pow_le_mono_r; lia).
  assert (C2 : 2 <= 2 ^ cf c) by (change 2 with (2 ^ 1) at 1; apply Z.pow_le_mono_r; lia).
  destruct (ity_ok_pow _ Ht) as [E2 P2].
  assert (BQ' : q' < 2 ^ cf c).
  { apply Z.div_lt_upper_bound; [lia|]. rewrite EV. nia. }
  assert (BQ : q <= q') by (apply Z.div_le_mono; lia).
  assert (VQ : forall z, 0 <= z <= q' -> valid c z = true).
  { intros z Hz. unfold valid, in_range, minv, maxv. destruct (sgn (ct c)); lia. }
  (* the C++ evaluation *)
  assert (Sh : forall k, 0 <= k <= 63 -> c_shl int64 1 k = Ok (wrap int64 (2 ^ k))).
  { intros k K. unfold c_shl. change (bits (promote int64)) with 64.
    replace ((0 <=? k) && (k <? 64)) with true by lia. rewrite shiftl_mul, Z.mul_1_l by lia. reflexivity. }
  assert (Dv : forall k, 0 <= k <= 63 -> c_div int64 (promote int64) V (wrap int64 (2 ^ k)) = Ok (V / 2 ^ k)).
  { intros k K. destruct (Z.eq_dec k 63) as [->|].
    - vm_compute. reflexivity.
    - pose proof (narrow_quot int64 V k eq_refl eq_refl ltac:(cbn; lia)) as N.
      rewrite Sh in N by lia. cbn [bind] in N. rewrite N. f_equal. apply Z.quot_div_nonneg; [lia|].
      apply pow2_pos; lia. }
  exists (if cr c then q' else q).
  assert (EQ : nearly_compare_epsilon c = Ok (if cr c then q' else q)).
  { unfold nearly_compare_epsilon, from_fixed_num_value.
    change 0x5000000000000 with V. replace (64 >? cf c) with true by lia. fold d.
    rewrite Sh by lia. cbn [bind]. rewrite Dv by lia. cbn [bind]. fold q.
    destruct (cr c).
    - rewrite Sh by lia. cbn [bind]. rewrite Dv by lia. cbn [bind].
      set (q1 := V / 2 ^ (d - 1)).
      assert (Q1 : 0 <= q1 <= V).
      { split; [apply Z.div_pos; lia|]. apply Z.div_le_upper_bound; [lia|]. nia. }
      assert (I64 : forall z, 0 <= z <= 2 * V -> in_range int64 z = true).
      { intros z Z1. unfold in_range, minv, maxv; cbn [int64 sgn bits]. change (2 ^ (64 - 1)) with 9223372036854775808. lia. }
      assert (R1 : c_rem (promote int64) int32 q1 2 = Ok (Z.rem q1 2)).
      { unfold c_rem. change (uac (promote int64) int32) with int64.
        rewrite (wrap_id int64 q1) by (auto; apply I64; lia).
        change (wrap int64 2) with 2. change (2 =? 0) with false. cbv iota.
        replace (in_range int64 (Z.quot q1 2)) with true; [reflexivity|].
        symmetry. apply I64. pose proof (quot_range_u q1 2 ltac:(lia) ltac:(lia)). lia. }
      rewrite R1. cbn [bind].
      pose proof (Z.rem_bound_pos q1 2 ltac:(lia) ltac:(lia)) as RB.
      unfold c_add. change (uac (promote int64) (promote int64)) with int64.
      assert (QV : q <= V) by (apply Z.div_le_upper_bound; nia).
      rewrite (wrap_id int64 q) by (auto; apply I64; lia).
      rewrite (wrap_id int64 (Z.rem q1 2)) by (auto; apply I64; lia).
      rewrite arith_ok by (auto; apply I64; lia). cbn [bind].
      pose proof (quot_round V d ltac:(lia)) as QR. change (0 <=? V) with true in QR. cbv iota in QR.
      rewrite !Z.quot_div_nonneg in QR by lia. fold q q' q1 in QR. rewrite QR.
      f_equal. apply valid_wrap; auto. apply VQ; lia.
    - f_equal. apply valid_wrap; auto. }
  split; [exact EQ|]. split; [apply VQ; destruct (cr c); lia|]. split; [destruct (cr c); lia|].
  split; intros R; rewrite R.
  - apply is_trunc_iff; [lia|]. rewrite Z.quot_div_nonneg by lia. unfold q.
    rewrite <- (Z.div_mul_cancel_r V (2 ^ d) (2 ^ cf c)) by lia. rewrite Ed, EV.
    change (2 ^ 64) with (65536 * 2 ^ 48).
    replace (5 * 2 ^ 48 * 2 ^ cf c) with ((5 * 2 ^ cf c) * 2 ^ 48) by lia.
    apply Z.div_mul_cancel_r; lia.
  - apply is_nearest_away_iff; [lia|]. change (0 <=? 5) with true. cbv iota. unfold q'.
    assert (Ed2 : 2 ^ (d - 1) * 2 ^ cf c = 2 ^ 63) by lia.
    rewrite <- (Z.div_mul_cancel_r (V + 2 ^ (d - 1)) (2 ^ d) (2 ^ cf c)) by lia. rewrite Ed.
    replace ((V + 2 ^ (d - 1)) * 2 ^ cf c) with (V * 2 ^ cf c + 2 ^ 63) by lia. rewrite EV.
    change (2 ^ 64) with (2 * 65536 * 2 ^ 47). change (2 ^ 63) with (65536 * 2 ^ 47). change (2 ^ 48) with (2 * 2 ^ 47).
    replace (5 * (2 * 2 ^ 47) * 2 ^ cf c + 65536 * 2 ^ 47) with ((2 * 5 * 2 ^ cf c + 65536) * 2 ^ 47) by lia.
    apply Z.div_mul_cancel_r; lia.
Qed.

(** all six near-comparisons as tests on the exact difference *)
Lemma nearly_thm c x y e : wf c = true -> sgn (promote (ct c)) = true ->
  valid c x = true -> valid c y = true -> nearly_compare_epsilon c = Ok e ->
  fits (bits (promote (ct c))) true (x - y) ->
  let D := (qval (cf c) x - qval (cf c) y)%Q in
  let E := qval (cf c) e in
  exists beq bne bgt blt bge ble,
    nearly_eq c x y = Ok beq /\ (beq = true <-> (Qabs D <= E)%Q) /\
    nearly_ne c x y = Ok bne /\ (bne = true <-> ~ (Qabs D <= E)%Q) /\
    nearly_gt c x y = Ok bgt /\ (bgt = true <-> (E < D)%Q) /\
    nearly_lt c x y = Ok blt /\ (blt = true <-> (D < - E)%Q) /\
    nearly_gt_eq c x y = Ok bge /\ (bge = true <-> ~ (D < - E)%Q) /\
    nearly_lt_eq c x y = Ok ble /\ (ble = true <-> ~ (E < D)%Q).
Proof.
  intros H S X Y Ee Fd D E. destruct (eps_raw c H) as (e' & Ee' & Ve & E0 & _).
  rewrite Ee in Ee'. injection Ee' as <-.
  rewrite <- S in Fd. apply fits_range in Fd.
  pose proof (promote_ok _ (wf_ct c H)) as Hp. set (p := promote (ct c)) in *.
  assert (SUB : c_sub (ct c) (ct c) x y = Ok (x - y)).
  { unfold c_sub. rewrite uac_refl, !wrap_p by auto. apply arith_ok; auto. }
  assert (Rne : in_range p (- e) = true).
  { pose proof (valid_promote c e H Ve) as R. fold p in R. destruct (ity_ok_pow p Hp) as [K1 K2].
    clear - R S E0 K1 K2. unfold in_range, minv, maxv in *. rewrite S in *. lia. }
  assert (NEG : c_neg (ct c) e = Ok (- e)).
  { unfold c_neg. apply arith_ok; auto. }
  assert (Re : in_range p e = true) by (apply valid_promote; auto).
  assert (LE1 : c_le p p (- e) (x - y) = (- e <=? x - y)).
  { unfold c_le, p. rewrite uac_pp. fold p. rewrite !wrap_id by auto. reflexivity. }
  assert (LE2 : c_le p (ct c) (x - y) e = (x - y <=? e)).
  { unfold c_le, p. rewrite uac_promote_l. fold p. rewrite !wrap_id by auto. reflexivity. }
  assert (LT1 : c_lt p p (x - y) (- e) = (x - y <? - e)).
  { unfold c_lt, p. rewrite uac_pp. fold p. rewrite !wrap_id by auto. reflexivity. }
  assert (LT2 : c_lt (ct c) p e (x - y) = (e <? x - y)).
  { unfold c_lt, p. rewrite uac_promote_r. fold p. rewrite !wrap_id by auto. reflexivity. }
  assert (A1 : (Qabs D <= E)%Q <-> (- e <= x - y <= e)).
  { unfold D, E. rewrite qval_minus, Qabs_Qle_condition, qval_opp, !qval_le. tauto. }
  assert (A2 : (E < D)%Q <-> e < x - y) by (unfold D, E; rewrite qval_minus, qval_lt; tauto).
  assert (A3 : (D < - E)%Q <-> x - y < - e) by (unfold D, E; rewrite qval_minus, qval_opp, qval_lt; tauto).
  exists ((- e <=? x - y) && (x - y <=? e)), ((x - y <? - e) || (e <? x - y)), (e <? x - y), (x - y <? - e),
    (negb (x - y <? - e)), (negb (e <? x - y)).
  rewrite A1, A2, A3. clear A1 A2 A3. clearbody D E.
  unfold nearly_gt_eq, nearly_lt_eq, nearly_eq, nearly_ne, nearly_gt, nearly_lt. fold p.
  rewrite SUB. cbn [bind]. rewrite Ee. cbn [bind]. rewrite NEG. cbn [bind].
  rewrite LE1, LE2, LT1, LT2. clear - E0. repeat split; intros; lia.
Qed.

(** ** integral and fractional part *)

Lemma land_low m w : 0 <= w -> Z.land m (2 ^ w - 1) = m mod 2 ^ w.
Proof.
  intros. rewrite <- Z.land_ones by auto. f_equal. rewrite Z.ones_equiv. lia.
Qed.

Lemma signbit_mask_eq c : wf c = true ->
  signbit_mask c = Ok (if sgn (ct c) then - 2 ^ (bits (ct c) - 1) else 2 ^ (bits (ct c) - 1)).
Proof.
  intros H. destruct (wf_bnd c H) as (B & Ht & _). destruct (ity_ok_pow _ Ht) as [E P].
  unfold signbit_mask. rewrite c_shl_ct by (auto; lia). cbn [bind].
  rewrite wrap_wrap_ct, Z.mul_1_l by auto. f_equal. destruct (sgn (ct c)) eqn:S.
  - apply (wrap_unique _ _ _ (-1)); auto; [|lia]. unfold in_range, minv, maxv. rewrite S. lia.
  - apply wrap_id; auto. unfold in_range, minv, maxv. rewrite S. lia.
Qed.

Lemma land_minpow m w : 0 <= w -> - 2 ^ w <= m < 2 ^ w -> Z.land m (- 2 ^ w) = if m <? 0 then - 2 ^ w else 0.
Proof.
  intros W B.
  assert (E : - 2 ^ w = Z.shiftl (-1) w) by (rewrite Z.shiftl_mul_pow2 by auto; lia).
  apply Z.bits_inj'. intros n Hn. rewrite Z.land_spec, E, Z.shiftl_spec by auto.
  assert (N1 : forall j, 0 <= j -> Z.testbit (-1) j = true) by (intros; apply Z.bits_m1; auto).
  destruct (Z_lt_ge_dec n w).
  - rewrite (Z.testbit_neg_r (-1) (n - w)), andb_false_r by lia.
    destruct (m <? 0).
    + rewrite Z.shiftl_spec, (Z.testbit_neg_r (-1) (n - w)) by lia. reflexivity.
    + rewrite Z.bits_0. reflexivity.
  - rewrite N1, andb_true_r by lia.
    pose proof (Z.shiftr_spec m w (n - w) ltac:(lia)) as SP. replace (n - w + w) with n in SP by lia.
    rewrite <- SP. rewrite Z.shiftr_div_pow2 by lia.
    destruct (Z.ltb_spec m 0).
    + replace (m / 2 ^ w) with (-1). rewrite N1 by lia. rewrite Z.shiftl_spec, N1 by lia. reflexivity.
      apply Z.div_unique_pos with (r := m + 2 ^ w); lia.
    + rewrite Z.div_small by lia. rewrite !Z.bits_0. reflexivity.
Qed.

Lemma signbit_eq c m : wf c = true -> valid c m = true ->
  fx_signbit c m = Ok (m <? 0).
Proof.
  intros H V. unfold fx_signbit. destruct (valid_bounds c m H V) as (B1 & B2 & B3).
  destruct (wf_bnd c H) as (B & Ht & _). destruct (ity_ok_pow _ Ht) as [E P].
  destruct (sgn (ct c)) eqn:S.
  - rewrite signbit_mask_eq, S by auto. cbn [bind]. unfold c_and. rewrite uac_refl, wrap_p by auto.
    rewrite wrap_p by (auto; unfold valid, in_range, minv, maxv; rewrite S; lia).
    rewrite land_minpow by (specialize (B2 eq_refl); lia). f_equal.
    destruct (Z.ltb_spec m 0); [|reflexivity].
    destruct (Z.eqb_spec (- 2 ^ (bits (ct c) - 1)) 0); [lia|reflexivity].
  - f_equal. specialize (B3 eq_refl). lia.
Qed.

Lemma signbit_thm c m : wf c = true -> valid c m = true ->
  exists b, fx_signbit c m = Ok b /\ (b = true <-> (qval (cf c) m < 0)%Q) /\ (sgn (ct c) = false -> b = false).
Proof.
  intros H V. exists (m <? 0). rewrite signbit_eq by auto. split; [reflexivity|]. split.
  - unfold qval, Qlt; cbn [Qnum Qden]. lia.
  - intros S. destruct (valid_bounds c m H V) as (_ & _ & B3). specialize (B3 S). lia.
Qed.

(** the sign bit is cleared from the representation, then the fraction is dropped *)
Lemma raw_integral_eq c m : wf c = true -> valid c m = true ->
  raw_integral_part c m = Ok ((m mod 2 ^ (bits (ct c) - 1)) / 2 ^ cf c).
Proof.
  intros H V. destruct (wf_bnd c H) as (B & Ht & _ & _ & _ & F). destruct (ity_ok_pow _ Ht) as [E P].
  pose proof (promote_ok _ Ht) as Hp. pose proof (promote_bits _ Ht) as [PB _].
  set (w := bits (ct c) - 1) in *. pose proof (cf_pos c H) as CP.
  unfold raw_integral_part. rewrite signbit_mask_eq by auto. cbn [bind]. fold w.
  pose proof (Z.mod_pos_bound m (2 ^ w) ltac:(zlia)) as MB.
  assert (R : wrap (ct c) (c_and (ct c) (promote (ct c)) m (c_not (ct c) (if sgn (ct c) then - 2 ^ w else 2 ^ w))) = m mod 2 ^ w).
  { unfold c_and, c_not. rewrite uac_promote_r, wrap_p by auto.
    rewrite wrap_narrow by (auto; zlia).
    destruct (sgn (ct c)) eqn:S.
    - replace (Z.lnot (- 2 ^ w)) with (2 ^ w - 1) by (unfold Z.lnot; zlia).
      rewrite (wrap_id (promote (ct c)) (2 ^ w - 1)); [| auto | apply valid_promote; auto; unfold valid, in_range, minv, maxv; rewrite S; fold w; lia].
      rewrite land_low by (unfold w; zlia). apply wrap_id; auto.
      unfold in_range, minv, maxv; rewrite S; fold w; lia.
    - (* unsigned store: ~2^w in the promoted type, all upper bits set *)
      destruct (valid_bounds c m H V) as (B1 & _ & B3). specialize (B3 S).
      destruct (wrap_cong (promote (ct c)) (Z.lnot (2 ^ w)) Hp) as [k ->].
      assert (EB : 2 ^ bits (promote (ct c)) = 2 ^ (bits (promote (ct c)) - bits (ct c)) * 2 ^ bits (ct c)).
      { rewrite <- Z.pow_add_r by zlia. f_equal. zlia. }
      set (u := Z.lnot (2 ^ w) + k * 2 ^ bits (promote (ct c))).
      assert (U : u = (2 ^ w - 1) + (k * 2 ^ (bits (promote (ct c)) - bits (ct c)) - 1) * 2 ^ bits (ct c)).
      { unfold u, Z.lnot, Z.pred. rewrite EB, E. ring. }
      assert (L : Z.land m u = Z.land m (u mod 2 ^ bits (ct c))).
      { apply Z.bits_inj'. intros n Hn. rewrite !Z.land_spec.
        destruct (Z_lt_ge_dec n (bits (ct c))).
        - rewrite Z.mod_pow2_bits_low by zlia. reflexivity.
        - replace (Z.testbit m n) with false; [reflexivity|]. symmetry.
          destruct (Z.eq_dec m 0) as [->|]; [apply Z.bits_0|].
          apply Z.bits_above_log2; [zlia|]. apply Z.log2_lt_pow2; [zlia|].
          pose proof (Z.pow_le_mono_r 2 (bits (ct c)) n ltac:(zlia) ltac:(zlia)). zlia. }
      rewrite L, U, Z.mod_add by zlia. rewrite (Z.mod_small (2 ^ w - 1)) by zlia.
      rewrite land_low by (unfold w; zlia). apply wrap_id; auto.
      unfold in_range, minv, maxv; rewrite S; lia. }
  rewrite R. rewrite c_shr_ct by (auto; zlia). cbn [bind]. f_equal. apply valid_wrap; auto.
  assert (0 <= (m mod 2 ^ w) / 2 ^ cf c <= m mod 2 ^ w).
  { split; [apply Z.div_pos; zlia|]. apply Z.div_le_upper_bound; [zlia|]. znia. }
  unfold valid, in_range, minv, maxv. fold w. destruct (sgn (ct c)); lia.
Qed.

Lemma integral_nonneg c m : wf c = true -> valid c m = true -> 0 <= m ->
  integral_part c m = Ok (m / 2 ^ cf c).
Proof.
  intros H V M. unfold integral_part. rewrite signbit_eq by auto. cbn [bind].
  replace (m <? 0) with false by zlia. cbn [bind].
  destruct (wf_bnd c H) as (B & Ht & _ & _ & _ & F).
  rewrite c_shr_ct by (auto; zlia). cbn [bind]. f_equal. apply valid_wrap; auto.
  pose proof (cf_pos c H).
  assert (0 <= m / 2 ^ cf c <= m).
  { split; [apply Z.div_pos; zlia|]. apply Z.div_le_upper_bound; [zlia|]. znia. }
  unfold valid, in_range, minv, maxv in *. destruct (sgn (ct c)); lia.
Qed.

(** for negative values the magnitude is rounded UP *)
Lemma integral_neg c m : wf c = true -> (wide_signed c = true -> cf c <= bits (ct c) - 2) ->
  valid c m = true -> m < 0 -> valid c (- m - 1 + 2 ^ cf c) = true ->
  integral_part c m = Ok (- (m / 2 ^ cf c)).
Proof.
  intros H W V M V2. unfold integral_part. rewrite signbit_eq by auto. cbn [bind].
  replace (m <? 0) with true by zlia.
  destruct (one_promoted c H W) as [O R]. rewrite O. cbn [bind].
  destruct (wf_bnd c H) as (B & Ht & _ & _ & _ & F).
  assert (S : sgn (ct c) = true).
  { destruct (valid_bounds c m H V) as (_ & _ & B3). destruct (sgn (ct c)); [reflexivity|]. specialize (B3 eq_refl). zlia. }
  assert (VN : valid c (- m - 1) = true).
  { unfold valid, in_range, minv, maxv in *. rewrite S in *. lia. }
  assert (N : wrap (ct c) (c_not (ct c) m) = - m - 1).
  { unfold c_not. rewrite wrap_wrap_p by auto. unfold Z.lnot. replace (Z.pred (- m)) with (- m - 1) by zlia.
    apply valid_wrap; auto. }
  rewrite N. unfold c_add. rewrite uac_promote_r, wrap_p, (wrap_id _ (2 ^ cf c)) by (auto using promote_ok).
  rewrite arith_ok by (auto using promote_ok, valid_promote). cbn [bind].
  rewrite valid_wrap by auto. rewrite c_shr_ct by (auto; zlia). cbn [bind].
  pose proof (cf_pos c H) as P.
  assert (D : (- m - 1 + 2 ^ cf c) / 2 ^ cf c = - (m / 2 ^ cf c)).
  { pose proof (Z.div_mod m (2 ^ cf c) ltac:(zlia)). pose proof (Z.mod_pos_bound m (2 ^ cf c) P).
    symmetry. apply Z.div_unique_pos with (r := 2 ^ cf c - 1 - m mod 2 ^ cf c); zlia. }
  rewrite D. f_equal. apply valid_wrap; auto.
  assert (0 <= - (m / 2 ^ cf c) <= - m).
  { assert (m / 2 ^ cf c <= 0) by (apply Z.div_le_upper_bound; znia).
    split; [zlia|]. assert (m <= m / 2 ^ cf c); [|zlia]. apply Z.div_le_lower_bound; znia. }
  assert (- m <= - m - 1 + 2 ^ cf c) by zlia.
  unfold valid, in_range, minv, maxv in *. rewrite S in *. lia.
Qed.

Lemma fractional_eq c m : wf c = true -> (wide_signed c = true -> cf c <= bits (ct c) - 2) -> valid c m = true ->
  fractional_part c m = Ok (Z.rem m (2 ^ cf c)).
Proof.
  intros H W V. unfold fractional_part. destruct (one_promoted c H W) as [O R]. rewrite O. cbn [bind].
  pose proof (wf_ct c H) as Ht. pose proof (promote_ok _ Ht) as Hp. pose proof (cf_pos c H) as P.
  unfold c_rem. rewrite uac_promote_r, (wrap_p c m), (wrap_id _ (2 ^ cf c)) by auto.
  replace (2 ^ cf c =? 0) with false by zlia.
  pose proof (quot_between m (2 ^ cf c) P) as QB.
  assert (VQ : valid c (Z.quot m (2 ^ cf c)) = true).
  { destruct (ity_ok_pow _ Ht). unfold valid, in_range, minv, maxv in *. destruct (sgn (ct c)); lia. }
  rewrite (valid_promote c _ H VQ), andb_false_r. cbn [bind]. f_equal. apply valid_wrap; auto.
  assert (Z.min m 0 <= Z.rem m (2 ^ cf c) <= Z.max m 0).
  { pose proof (Z.quot_rem' m (2 ^ cf c)). destruct (Z_le_gt_dec 0 m).
    - pose proof (Z.rem_bound_pos m (2 ^ cf c) ltac:(zlia) P).
      pose proof (quot_range_u m (2 ^ cf c) ltac:(zlia) P). znia.
    - pose proof (Z.rem_nonpos m (2 ^ cf c) ltac:(zlia) ltac:(zlia)). znia. }
  destruct (ity_ok_pow _ Ht). unfold valid, in_range, minv, maxv in *. destruct (sgn (ct c)); lia.
Qed.

(** recomposition for non-negative values *)
Lemma parts_recompose c m : wf c = true -> (wide_signed c = true -> cf c <= bits (ct c) - 2) ->
  valid c m = true -> (0 <= qval (cf c) m)%Q ->
  exists i fr, integral_part c m = Ok i /\ fractional_part c m = Ok fr /\
    is_trunc 0 (qval (cf c) m) i /\ (qval (cf c) m == inject_Z i + qval (cf c) fr)%Q /\
    (0 <= qval (cf c) fr)%Q /\ (qval (cf c) fr < 1)%Q.
Proof.
  intros H W V M. pose proof (cf_nonneg c H) as Hf. pose proof (cf_pos c H) as P.
  destruct (qval_sign (cf c) m Hf) as [QS _]. apply QS in M.
  exists (m / 2 ^ cf c), (Z.rem m (2 ^ cf c)).
  split; [apply integral_nonneg; auto|]. split; [apply fractional_eq; auto|].
  rewrite Z.rem_mod_nonneg by zlia.
  pose proof (Z.div_mod m (2 ^ cf c) ltac:(zlia)). pose proof (Z.mod_pos_bound m (2 ^ cf c) P).
  split; [apply is_trunc_int; auto; symmetry; apply Z.quot_div_nonneg; zlia|].
  split; [rewrite <- qval_int with (f := cf c) by auto; rewrite qval_plus; apply qval_eq; zlia|].
  split; [apply (proj1 (qval_sign _ _ Hf)); zlia|].
  unfold qval, Qlt; cbn [Qnum Qden]. rewrite pow2p_pos by auto. zlia.
Qed.

(** ** limits *)
Lemma limits_thm c m : wf c = true -> valid c m = true ->
  valid c (nl_min c) = true /\ valid c (nl_max c) = true /\ nl_lowest c = nl_min c /\
  (qval (cf c) (nl_min c) <= qval (cf c) m)%Q /\ (qval (cf c) m <= qval (cf c) (nl_max c))%Q.
Proof.
  intros H V. rewrite !qval_le. destruct (ity_ok_pow _ (wf_ct c H)).
  unfold nl_lowest, nl_min, nl_max, from_internal_value, valid, in_range in *.
  assert (minv (ct c) <= maxv (ct c)) by (unfold minv, maxv; destruct (sgn (ct c)); lia).
  repeat split; lia.
Qed.
