(** Proofs about construction and conversion (C01-C08). *)
From Coq Require Import ZArith Bool List Lia ZifyBool QArith Zquot.
From Verif Require Import Base Fixed Spec BaseLemmas SpecLemmas FixedLemmas.
Open Scope Z_scope.

Lemma cf_nonneg c : wf c = true -> 0 <= cf c.
Proof. intros H. destruct (wf_bnd c H) as (_ & _ & _ & _ & _ & F). lia. Qed.

Lemma int_ctor_exact c n : wf c = true ->
  representable (bits (ct c)) (sgn (ct c)) (cf c) (inject_Z n) ->
  exists m, fx_of_int c n = Ok m /\ valid c m = true /\ (qval (cf c) m == inject_Z n)%Q.
Proof.
  intros H (m & F & E). pose proof (cf_nonneg c H) as Hf. exists m.
  apply fits_valid in F. rewrite fx_of_int_eq by auto.
  assert (m = n * 2 ^ cf c) as <-.
  { apply (qval_eq (cf c)). rewrite E, qval_int by lia. reflexivity. }
  rewrite valid_wrap by auto. auto.
Qed.

Lemma int_ctor_wraps c n : wf c = true ->
  exists m, fx_of_int c n = Ok m /\ valid c m = true /\ cong (bits (ct c)) m (n * 2 ^ cf c).
Proof.
  intros H. rewrite fx_of_int_eq by auto. eexists. split; [reflexivity|]. split.
  - apply valid_wrap_valid; auto.
  - apply wrap_cong, wf_ct; auto.
Qed.

Lemma int_cast_floor c t m n : wf c = true -> ity_ok t = true -> valid c m = true ->
  is_floor 0 (qval (cf c) m) n -> fits (bits t) (sgn t) n -> fx_to_int c t m = Ok n.
Proof.
  intros H Ht V F R. pose proof (cf_nonneg c H). rewrite is_floor_int in F by auto.
  rewrite fx_to_int_eq, <- F by auto. apply fits_range in R. rewrite wrap_id; auto.
Qed.

Lemma int_roundtrip c t n : wf c = true -> ity_ok t = true -> fits (bits t) (sgn t) n ->
  representable (bits (ct c)) (sgn (ct c)) (cf c) (inject_Z n) ->
  (let* m := fx_of_int c n in fx_to_int c t m) = Ok n.
Proof.
  intros H Ht R Rep. destruct (int_ctor_exact c n H Rep) as (m & -> & V & E). cbn [bind].
  apply int_cast_floor; auto. pose proof (cf_nonneg c H).
  eapply is_floor_Qeq; [symmetry; exact E|].
  unfold inject_Z. apply is_floor_iff; [lia|]. rewrite Z.div_1_r. lia.
Qed.

Lemma float_cast_trunc c m n : wf c = true -> valid c m = true ->
  is_trunc 0 (qval (cf c) m) n -> fx_to_float c m = Ok n.
Proof.
  intros H V T. rewrite is_trunc_int in T by (auto using cf_nonneg). subst.
  apply fx_to_float_eq; auto.
Qed.

Lemma float_cast_exact_iff c m n : wf c = true -> valid c m = true ->
  fx_to_float c m = Ok n -> ((inject_Z n == qval (cf c) m)%Q <-> is_int (qval (cf c) m)).
Proof.
  intros H V. rewrite fx_to_float_eq by auto. intros E; injection E as <-.
  pose proof (cf_pos c H) as P. pose proof (cf_nonneg c H) as Hf. split.
  - intros E. eexists. symmetry. exact E.
  - intros (k & E). rewrite E. rewrite <- qval_int with (f := cf c) in E by auto.
    apply qval_eq in E. subst m. rewrite Z.quot_mul by lia. reflexivity.
Qed.

Lemma float_ctor_trunc c n k m : wf c = true -> cr c = false -> 0 <= k ->
  is_trunc (cf c) (qval k n) m ->
  fx_of_float c n k = if in_range (ct c) m then Ok m else UB.
Proof.
  intros H R K T. unfold qval in T. rewrite is_trunc_iff, pow2p_pos in T by (auto using cf_nonneg).
  unfold fx_of_float, float_to_int. rewrite R, <- T. reflexivity.
Qed.

Lemma float_ctor_exact c n k m : wf c = true -> cr c = false -> 0 <= k -> valid c m = true ->
  (qval (cf c) m == qval k n)%Q -> fx_of_float c n k = Ok m.
Proof.
  intros H R K V E. pose proof (cf_nonneg c H) as Hf. pose proof (cf_pos c H) as P.
  pose proof (pow2_pos k K) as P2.
  unfold qval, Qeq in E; cbn [Qnum Qden] in E. rewrite !pow2p_pos in E by auto.
  unfold fx_of_float, float_to_int. rewrite R, <- E, Z.quot_mul by lia.
  unfold valid in V. rewrite V. reflexivity.
Qed.

(** the negative branch of the rounding constructor does round to nearest *)
Lemma float_ctor_round_neg c n k m : wf c = true -> cr c = true -> 0 <= k -> n < 0 ->
  is_nearest_away (cf c) (qval k n) m ->
  fx_of_float c n k = if in_range (ct c) m then Ok m else UB.
Proof.
  intros H R K N T. unfold qval in T.
  pose proof (cf_pos c H) as P. pose proof (pow2_pos k K) as P2.
  rewrite is_nearest_away_iff, pow2p_pos in T by (auto using cf_nonneg).
  unfold fx_of_float, float_to_int. rewrite R.
  replace (0 <=? n) with false in * by lia. rewrite quot_neg_div by nia.
  replace (- (2 * (n * 2 ^ cf c) - 2 ^ k)) with (2 * (- n) * 2 ^ cf c + 2 ^ k) by lia.
  rewrite (Z.mul_comm (2 ^ k) 2), <- T. reflexivity.
Qed.

(** ** fixed -> fixed *)
Lemma pow_in_range t d : ity_ok t = true -> 0 <= d < bits t - 1 -> in_range t (2 ^ d) = true.
Proof.
  intros H D. destruct (ity_ok_pow t H) as [E P].
  pose proof (Z.pow_lt_mono_r 2 d (bits t - 1) ltac:(lia) ltac:(lia) ltac:(lia)).
  pose proof (pow2_pos d ltac:(lia)).
  unfold in_range, minv, maxv. destruct (sgn t); lia.
Qed.

Lemma widen_eq dst src m : wf dst = true -> wf src = true -> cf src <= cf dst ->
  cf dst - cf src < bits (promote (ct src)) - 1 -> valid src m = true ->
  fx_of_fixed dst src m =
    (let* p := arith (promote (ct src)) (m * 2 ^ (cf dst - cf src)) in Ok (wrap (ct dst) p)).
Proof.
  intros Hd Hs L D V. pose proof (wf_ct _ Hs) as Ht. pose proof (promote_ok _ Ht) as Hp.
  unfold fx_of_fixed, from_fixed_num_value. replace (cf src >? cf dst) with false by lia.
  unfold c_shl. replace ((0 <=? cf dst - cf src) && (cf dst - cf src <? bits (promote (ct src)))) with true by lia.
  cbn [bind]. rewrite shiftl_mul, Z.mul_1_l by lia.
  rewrite (wrap_id _ (2 ^ _)) by (auto; apply pow_in_range; auto; lia).
  unfold c_mul. rewrite uac_promote_r.
  rewrite wrap_p by auto. rewrite (wrap_id _ (2 ^ _)) by (auto; apply pow_in_range; auto; lia).
  reflexivity.
Qed.

Lemma widen_exact dst src m : wf dst = true -> wf src = true -> cf src <= cf dst ->
  cf dst - cf src < bits (promote (ct src)) - 1 -> valid src m = true ->
  fits (bits (promote (ct src))) (sgn (promote (ct src))) (m * 2 ^ (cf dst - cf src)) ->
  representable (bits (ct dst)) (sgn (ct dst)) (cf dst) (qval (cf src) m) ->
  exists m', fx_of_fixed dst src m = Ok m' /\ valid dst m' = true /\ (qval (cf dst) m' == qval (cf src) m)%Q.
Proof.
  intros Hd Hs L D V F (m' & F' & E). exists m'. apply fits_valid in F'. apply fits_range in F.
  assert (m' = m * 2 ^ (cf dst - cf src)).
  { apply qval_eq_shift with (f := cf src); [auto using cf_nonneg|lia|].
    replace (cf src + (cf dst - cf src)) with (cf dst) by lia. exact E. }
  subst m'. rewrite widen_eq by auto. rewrite arith_ok; auto using promote_ok, wf_ct.
  cbn [bind]. rewrite valid_wrap by auto. auto.
Qed.

Lemma widen_ub dst src m : wf dst = true -> wf src = true -> cf src <= cf dst ->
  cf dst - cf src < bits (promote (ct src)) - 1 -> valid src m = true -> sgn (promote (ct src)) = true ->
  (fx_of_fixed dst src m = UB <->
   ~ fits (bits (promote (ct src))) (sgn (promote (ct src))) (m * 2 ^ (cf dst - cf src))).
Proof.
  intros Hd Hs L D V S. rewrite widen_eq by auto. rewrite fits_range. unfold arith. rewrite S.
  destruct (in_range _ _); cbn [bind]; split; intros; congruence.
Qed.

Lemma narrow_quot t v d : ity_ok t = true -> in_range t v = true -> 0 <= d < bits t - 1 ->
  (let* p := c_shl t 1 d in c_div t (promote t) v p) = Ok (Z.quot v (2 ^ d)).
Proof.
  intros H V D. pose proof (promote_ok t H) as Hp. pose proof (promote_bits t H) as B.
  pose proof (pow2_pos d ltac:(lia)) as P.
  unfold c_shl. replace ((0 <=? d) && (d <? bits (promote t))) with true by lia. cbn [bind].
  rewrite shiftl_mul, Z.mul_1_l by lia.
  assert (R : in_range (promote t) (2 ^ d) = true) by (apply promote_range; auto using pow_in_range).
  rewrite (wrap_id _ (2 ^ d)) by auto.
  unfold c_div. rewrite uac_promote_r, !wrap_id by (auto using promote_range).
  replace (2 ^ d =? 0) with false by lia. apply arith_ok; auto.
  apply promote_range; auto. pose proof (quot_between v (2 ^ d) P).
  unfold in_range, minv, maxv in *. destruct (ity_ok_pow t H). destruct (sgn t); lia.
Qed.

Lemma narrow_eq dst src m : wf dst = true -> wf src = true -> cf dst < cf src -> valid src m = true ->
  cr dst = false ->
  fx_of_fixed dst src m = Ok (wrap (ct dst) (Z.quot m (2 ^ (cf src - cf dst)))).
Proof.
  intros Hd Hs L V R. destruct (wf_bnd _ Hs) as (_ & Ht & _ & _ & _ & F).
  destruct (wf_bnd _ Hd) as (_ & _ & _ & _ & _ & F').
  unfold fx_of_fixed, from_fixed_num_value. replace (cf src >? cf dst) with true by lia.
  rewrite R. pose proof (narrow_quot (ct src) m (cf src - cf dst) Ht V ltac:(lia)) as Q.
  destruct (c_shl (ct src) 1 (cf src - cf dst)); try discriminate. cbn [bind] in *.
  rewrite Q. reflexivity.
Qed.

Lemma narrow_trunc dst src m r : wf dst = true -> wf src = true -> cf dst < cf src ->
  valid src m = true -> cr dst = false -> is_trunc (cf dst) (qval (cf src) m) r ->
  exists m', fx_of_fixed dst src m = Ok m' /\ valid dst m' = true /\ cong (bits (ct dst)) m' r
             /\ (fits (bits (ct dst)) (sgn (ct dst)) r -> m' = r).
Proof.
  intros Hd Hs L V R T. pose proof (cf_nonneg dst Hd).
  rewrite is_trunc_narrow in T by lia. rewrite narrow_eq, <- T by auto.
  eexists. split; [reflexivity|]. repeat split.
  - apply valid_wrap_valid; auto.
  - apply wrap_cong, wf_ct; auto.
  - intros F. apply fits_range in F. apply wrap_id; auto using wf_ct.
Qed.

(** quotient + next bit = round half away from zero *)
Lemma quot_round m d : 1 <= d ->
  Z.quot m (2 ^ d) + Z.rem (Z.quot m (2 ^ (d - 1))) 2 =
  if 0 <=? m then (m + 2 ^ (d - 1)) / 2 ^ d else - ((- m + 2 ^ (d - 1)) / 2 ^ d).
Proof.
  intros D. pose proof (pow2_pos (d - 1) ltac:(lia)) as P.
  assert (E : 2 ^ d = 2 ^ (d - 1) * 2).
  { replace d with (d - 1 + 1) at 1 by lia. rewrite Z.pow_add_r by lia. lia. }
  assert (G : forall a, 0 <= a ->
    Z.quot a (2 ^ d) + Z.rem (Z.quot a (2 ^ (d - 1))) 2 = (a + 2 ^ (d - 1)) / 2 ^ d).
  { intros a A. rewrite !Z.quot_div_nonneg by lia. rewrite Z.rem_mod_nonneg; [|apply Z.div_pos; lia|lia].
    rewrite E. rewrite <- Z.div_div by lia. set (q := a / 2 ^ (d - 1)).
    pose proof (Z.div_mod a (2 ^ (d - 1)) ltac:(lia)) as DM. fold q in DM.
    pose proof (Z.mod_pos_bound a (2 ^ (d - 1)) P).
    pose proof (Z.div_mod q 2 ltac:(lia)). pose proof (Z.mod_pos_bound q 2 ltac:(lia)).
    rewrite <- Z.div_div by lia.
    replace (a + 2 ^ (d - 1)) with (a mod 2 ^ (d - 1) + (q + 1) * 2 ^ (d - 1)) by lia.
    rewrite Z.div_add by lia. rewrite (Z.div_small (a mod 2 ^ (d - 1))) by lia.
    apply Z.div_unique_pos with (r := if q mod 2 =? 0 then 1 else 0); destruct (Z.eqb_spec (q mod 2) 0); lia. }
  destruct (Z.leb_spec 0 m); [auto|].
  rewrite <- (G (- m)) by lia.
  rewrite !Z.quot_opp_l by lia. rewrite Z.rem_opp_l by lia. lia.
Qed.

Lemma narrow_round_eq dst src m : wf dst = true -> wf src = true -> cf dst < cf src ->
  valid src m = true -> cr dst = true ->
  fx_of_fixed dst src m = Ok (wrap (ct dst)
    (Z.quot m (2 ^ (cf src - cf dst)) + Z.rem (Z.quot m (2 ^ (cf src - cf dst - 1))) 2)).
Proof.
  intros Hd Hs L V R. destruct (wf_bnd _ Hs) as (_ & Ht & _ & _ & _ & F).
  destruct (wf_bnd _ Hd) as (_ & _ & _ & _ & _ & F').
  unfold fx_of_fixed, from_fixed_num_value. replace (cf src >? cf dst) with true by lia.
  rewrite R. set (d := cf src - cf dst) in *. assert (D : 1 <= d) by lia.
  pose proof (narrow_quot (ct src) m d Ht V ltac:(lia)) as Q.
  pose proof (narrow_quot (ct src) m (d - 1) Ht V ltac:(lia)) as Q2.
  destruct (c_shl (ct src) 1 d); try discriminate. cbn [bind] in *. rewrite Q. cbn [bind].
  destruct (c_shl (ct src) 1 (d - 1)); try discriminate. cbn [bind] in *. rewrite Q2. cbn [bind].
  pose proof (promote_ok _ Ht) as Hp. set (p := promote (ct src)) in *.
  pose proof (pow2_pos (d - 1) ltac:(lia)) as P1. pose proof (pow2_pos d ltac:(lia)) as P0.
  assert (VR : forall x, Z.min m 0 <= x <= Z.max m 0 -> in_range p x = true).
  { intros x X. apply promote_range; auto. unfold valid, in_range, minv, maxv in *.
    destruct (ity_ok_pow _ Ht). destruct (sgn (ct src)); lia. }
  pose proof (quot_between m (2 ^ d) P0) as B0. pose proof (quot_between m (2 ^ (d - 1)) P1) as B1.
  set (q1 := Z.quot m (2 ^ (d - 1))) in *. set (q := Z.quot m (2 ^ d)) in *.
  unfold c_rem. unfold p. rewrite uac_i32 by auto. fold p.
  rewrite (wrap_id p q1) by (auto using VR).
  rewrite (wrap_id p 2) by (auto; apply in_range_small; auto; lia).
  change (2 =? 0) with false. cbv iota.
  pose proof (quot_between q1 2 ltac:(lia)) as B2.
  rewrite (VR (Z.quot q1 2)) by lia. rewrite andb_false_r. cbn [bind].
  unfold c_add. unfold p. rewrite uac_pp. fold p.
  assert (RB : Z.min q1 0 <= Z.rem q1 2 <= Z.max q1 0).
  { pose proof (Z.quot_rem' q1 2) as QR. pose proof (Z.rem_bound_abs q1 2 ltac:(lia)).
    destruct (Z_le_gt_dec 0 q1).
    - pose proof (Z.rem_bound_pos q1 2 ltac:(lia) ltac:(lia)).
      pose proof (quot_range_u q1 2 ltac:(lia) ltac:(lia)). lia.
    - pose proof (Z.rem_nonpos q1 2 ltac:(lia) ltac:(lia)). lia. }
  rewrite (wrap_id p q) by (auto using VR). rewrite (wrap_id p (Z.rem q1 2)) by (auto; apply VR; lia).
  rewrite arith_ok; [reflexivity|auto|]. apply VR.
  assert (E : 2 ^ d = 2 ^ (d - 1) * 2).
  { replace d with (d - 1 + 1) at 1 by lia. rewrite Z.pow_add_r by lia. lia. }
  pose proof (quot_round m d ltac:(lia)) as QR. fold q q1 in QR. rewrite QR.
  pose proof (Z.div_mod (m + 2 ^ (d - 1)) (2 ^ d) ltac:(lia)).
  pose proof (Z.mod_pos_bound (m + 2 ^ (d - 1)) (2 ^ d) ltac:(lia)).
  pose proof (Z.div_mod (- m + 2 ^ (d - 1)) (2 ^ d) ltac:(lia)).
  pose proof (Z.mod_pos_bound (- m + 2 ^ (d - 1)) (2 ^ d) ltac:(lia)).
  clear - H H0 H1 H2 E P1. destruct (Z.leb_spec 0 m).
  - assert (0 <= (m + 2 ^ (d - 1)) / 2 ^ d) by (apply Z.div_pos; lia).
    split; [lia|]. rewrite Z.max_l by lia. nia.
  - assert (0 <= (- m + 2 ^ (d - 1)) / 2 ^ d) by (apply Z.div_pos; lia).
    split; [|lia]. rewrite Z.min_l by lia. nia.
Qed.

Lemma narrow_round dst src m r : wf dst = true -> wf src = true -> cf dst < cf src ->
  valid src m = true -> cr dst = true -> is_nearest_away (cf dst) (qval (cf src) m) r ->
  exists m', fx_of_fixed dst src m = Ok m' /\ valid dst m' = true /\ cong (bits (ct dst)) m' r
             /\ (fits (bits (ct dst)) (sgn (ct dst)) r -> m' = r).
Proof.
  intros Hd Hs L V R T. pose proof (cf_nonneg dst Hd) as F0. pose proof (cf_nonneg src Hs) as F1.
  pose proof (cf_pos dst Hd) as P0.
  rewrite narrow_round_eq by auto. rewrite quot_round by lia.
  unfold qval in T. rewrite is_nearest_away_iff, pow2p_pos in T by lia.
  assert (T' : r = if 0 <=? m then (m + 2 ^ (cf src - cf dst - 1)) / 2 ^ (cf src - cf dst)
     else - ((- m + 2 ^ (cf src - cf dst - 1)) / 2 ^ (cf src - cf dst))).
  { rewrite T. set (d := cf src - cf dst).
    assert (ES : 2 ^ cf src = 2 ^ d * 2 ^ cf dst) by (rewrite <- Z.pow_add_r by lia; f_equal; lia).
    assert (E : 2 ^ d = 2 ^ (d - 1) * 2).
    { replace d with (d - 1 + 1) at 1 by lia. rewrite Z.pow_add_r by lia. lia. }
    pose proof (pow2_pos (d - 1) ltac:(lia)) as P1.
    assert (G : forall a, (2 * a * 2 ^ cf dst + 2 ^ cf src) / (2 * 2 ^ cf src) = (a + 2 ^ (d - 1)) / 2 ^ d).
    { intros a. rewrite ES.
      replace (2 * a * 2 ^ cf dst + 2 ^ d * 2 ^ cf dst) with ((a + 2 ^ (d - 1)) * (2 * 2 ^ cf dst)) by lia.
      replace (2 * (2 ^ d * 2 ^ cf dst)) with (2 ^ d * (2 * 2 ^ cf dst)) by lia.
      apply Z.div_mul_cancel_r; lia. }
    rewrite !G. reflexivity. }
  rewrite <- T'. eexists. split; [reflexivity|]. repeat split.
  - apply valid_wrap_valid; auto.
  - apply wrap_cong, wf_ct; auto.
  - intros F. apply fits_range in F. apply wrap_id; auto using wf_ct.
Qed.

Lemma narrow_widen dst src m m' : wf dst = true -> wf src = true -> cf src <= cf dst ->
  valid src m = true -> valid dst m' = true -> (qval (cf dst) m' == qval (cf src) m)%Q ->
  fx_of_fixed src dst m' = Ok m.
Proof.
  intros Hd Hs L V V' E. pose proof (cf_nonneg src Hs) as F0.
  assert (M : m' = m * 2 ^ (cf dst - cf src)).
  { apply qval_eq_shift with (f := cf src); [lia|lia|].
    replace (cf src + (cf dst - cf src)) with (cf dst) by lia. exact E. }
  destruct (Z.eq_dec (cf src) (cf dst)) as [Q|Q].
  - rewrite Q, Z.sub_diag, Z.mul_1_r in M. subst m'.
    rewrite widen_eq; auto; [| |]; rewrite ?Q, ?Z.sub_diag; try lia.
    + rewrite Z.mul_1_r, arith_ok; auto using promote_ok, wf_ct, valid_promote.
      cbn [bind]. rewrite valid_wrap; auto.
    + pose proof (promote_bits _ (wf_ct _ Hd)). lia.
  - assert (P : 0 < 2 ^ (cf dst - cf src)) by (apply pow2_pos; lia).
    destruct (cr src) eqn:R.
    + rewrite narrow_round_eq by (auto; lia). rewrite M, Z.quot_mul by lia.
      set (d := cf dst - cf src) in *.
      assert (E2 : 2 ^ d = 2 * 2 ^ (d - 1)).
      { replace d with (d - 1 + 1) at 1 by lia. rewrite Z.pow_add_r by lia. lia. }
      rewrite E2, Z.mul_assoc, Z.quot_mul by lia. rewrite Z.rem_mul by lia.
      rewrite Z.add_0_r, valid_wrap by auto. reflexivity.
    + rewrite narrow_eq by (auto; lia). rewrite M, Z.quot_mul, valid_wrap by (auto; lia). reflexivity.
Qed.
