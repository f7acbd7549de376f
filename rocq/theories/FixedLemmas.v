(** Closed forms of the fixed_num operations (Fixed.v): exact integer expressions with all C++
    conversions discharged. *)
From Coq Require Import ZArith Bool List Lia ZifyBool QArith Zquot.
From Verif Require Import Base Fixed Spec BaseLemmas.
Open Scope Z_scope.

Lemma cf_pos c : wf c = true -> 0 < 2 ^ cf c.
Proof. intros H. apply wf_bnd in H. apply pow2_pos. lia. Qed.

(** the powers of two that appear for a configuration, related *)
Lemma wf_pows c : wf c = true ->
  let P := 2 ^ (bits (ct c) - 1) in
  2 ^ bits (ct c) = 2 * P /\ 0 < P /\ 2 ^ cf c <= P /\ 2 <= 2 ^ cf c
  /\ 2 * P * P <= 2 ^ (bits (ci c) - 1) /\ 2 ^ bits (ci c) = 2 * 2 ^ (bits (ci c) - 1).
Proof.
  intros H P. destruct (wf_bnd c H) as (Hb & Ht & Hi & Hs & Hg & Hf).
  destruct (ity_ok_pow _ Ht) as [E1 P1]. destruct (ity_ok_pow _ Hi) as [E2 P2].
  repeat split; auto.
  - apply Z.pow_le_mono_r; lia.
  - change 2 with (2 ^ 1) at 1. apply Z.pow_le_mono_r; lia.
  - unfold P. rewrite <- Z.mul_assoc, <- Z.pow_add_r by lia.
    change 2 with (2 ^ 1) at 1. rewrite <- Z.pow_add_r by lia. apply Z.pow_le_mono_r; lia.
Qed.

Lemma shiftl_mul x s : 0 <= s -> Z.shiftl x s = x * 2 ^ s.
Proof. intros. apply Z.shiftl_mul_pow2; auto. Qed.
Lemma shiftr_div x s : 0 <= s -> Z.shiftr x s = x / 2 ^ s.
Proof. intros. apply Z.shiftr_div_pow2; auto. Qed.

Lemma c_shl_ct c x s : wf c = true -> 0 <= s < bits (ct c) ->
  c_shl (ct c) x s = Ok (wrap (promote (ct c)) (x * 2 ^ s)).
Proof.
  intros H Hs. unfold c_shl. pose proof (promote_bits _ (wf_ct c H)).
  rewrite shiftl_mul by lia.
  replace ((0 <=? s) && (s <? bits (promote (ct c)))) with true by lia. reflexivity.
Qed.
Lemma c_shr_ct c x s : wf c = true -> 0 <= s < bits (ct c) ->
  c_shr (ct c) x s = Ok (x / 2 ^ s).
Proof.
  intros H Hs. unfold c_shr. pose proof (promote_bits _ (wf_ct c H)).
  rewrite shiftr_div by lia.
  replace ((0 <=? s) && (s <? bits (promote (ct c)))) with true by lia. reflexivity.
Qed.

Lemma wrap_wrap_ct c x : wf c = true -> wrap (ct c) (wrap (promote (ct c)) x) = wrap (ct c) x.
Proof. intros. apply wrap_wrap_p, wf_ct; auto. Qed.

(** 1 << fraction in the promoted store type: the value 2^f except for a signed store of width
    >= 32 with fraction = width - 1, where it is the minimum value. *)
Lemma one_shift c : wf c = true ->
  c_shl (ct c) 1 (cf c) = Ok (wrap (promote (ct c)) (2 ^ cf c)).
Proof.
  intros H. rewrite c_shl_ct; auto; [rewrite Z.mul_1_l; reflexivity|].
  apply wf_bnd in H. lia.
Qed.

Lemma one_range c : wf c = true -> (sgn (ct c) = true -> cf c <= bits (ct c) - 2) ->
  in_range (ct c) (2 ^ cf c) = true.
Proof.
  intros H Hf. pose proof (wf_pows c H) as W. cbv zeta in W. destruct (wf_bnd c H) as (Hb & _ & _ & _ & _ & Hf2).
  unfold in_range, minv, maxv. destruct (sgn (ct c)).
  - specialize (Hf eq_refl).
    pose proof (Z.pow_le_mono_r 2 (cf c) (bits (ct c) - 2) ltac:(lia) Hf).
    assert (2 ^ (bits (ct c) - 1) = 2 * 2 ^ (bits (ct c) - 2)).
    { replace (bits (ct c) - 1) with (1 + (bits (ct c) - 2)) by lia. rewrite Z.pow_add_r by lia. lia. }
    lia.
  - lia.
Qed.

Lemma one_shift_ok c : wf c = true -> (sgn (ct c) = true -> cf c <= bits (ct c) - 2) ->
  c_shl (ct c) 1 (cf c) = Ok (2 ^ cf c).
Proof.
  intros H Hf. rewrite one_shift by auto. f_equal. apply wrap_id.
  - apply promote_ok, wf_ct; auto.
  - apply promote_range; auto using wf_ct, one_range.
Qed.

Lemma fm_ok c : wf c = true -> fraction_multiplier c = Ok (2 ^ cf c).
Proof.
  intros H. pose proof (wf_pows c H) as W. cbv zeta in W.
  destruct (wf_bnd c H) as (Hb & Ht & Hi & Hs & Hg & Hf).
  pose proof (promote_bits _ Hi).
  unfold fraction_multiplier, c_shl.
  replace ((0 <=? cf c) && (cf c <? bits (promote (ci c)))) with true by lia.
  cbn [bind]. rewrite shiftl_mul, Z.mul_1_l by lia. rewrite wrap_wrap_p by auto.
  f_equal. apply wrap_id; auto. unfold in_range, minv, maxv. destruct (sgn (ci c)); nia.
Qed.

(** ** construction and integer cast *)
Lemma wrap_mul_l t x k : ity_ok t = true -> wrap t (wrap t x * k) = wrap t (x * k).
Proof.
  intros H. destruct (wrap_cong t x H) as [j ->].
  apply (wrap_cong_eq _ _ _ (j * k) H). lia.
Qed.
Lemma wrap_add_l t x y : ity_ok t = true -> wrap t (wrap t x + y) = wrap t (x + y).
Proof.
  intros H. destruct (wrap_cong t x H) as [j ->].
  apply (wrap_cong_eq _ _ _ j H). lia.
Qed.
Lemma wrap_add_r t x y : ity_ok t = true -> wrap t (x + wrap t y) = wrap t (x + y).
Proof. intros. rewrite Z.add_comm, wrap_add_l, Z.add_comm by auto. reflexivity. Qed.
Lemma wrap_sub_r t x y : ity_ok t = true -> wrap t (x - wrap t y) = wrap t (x - y).
Proof.
  intros H. destruct (wrap_cong t y H) as [j ->].
  apply (wrap_cong_eq _ _ _ (- j) H). lia.
Qed.

Lemma fx_of_int_eq c n : wf c = true -> fx_of_int c n = Ok (wrap (ct c) (n * 2 ^ cf c)).
Proof.
  intros H. unfold fx_of_int. rewrite c_shl_ct by (auto; apply wf_bnd in H; lia).
  cbn [bind]. rewrite wrap_wrap_ct, wrap_mul_l by auto using wf_ct. reflexivity.
Qed.

Lemma fx_to_int_eq c t m : wf c = true -> fx_to_int c t m = Ok (wrap t (m / 2 ^ cf c)).
Proof.
  intros H. unfold fx_to_int. rewrite c_shr_ct by (auto; apply wf_bnd in H; lia). reflexivity.
Qed.

(** ** additive operations: exact, or overflow *)
Definition ovf (c : cfg) (r : Z) : res Z :=
  if sgn (ct c) && (32 <=? bits (ct c)) then (if valid c r then Ok r else UB)
  else Ok (wrap (ct c) r).

Lemma ovf_valid c r : wf c = true -> valid c r = true -> ovf c r = Ok r.
Proof.
  intros H V. unfold ovf. rewrite V, valid_wrap by auto.
  destruct (sgn (ct c) && (32 <=? bits (ct c))); reflexivity.
Qed.

(** arithmetic in the promoted store type followed by conversion to the store type *)
Lemma arith_ovf c r : wf c = true ->
  (bits (ct c) < 32 -> in_range int32 r = true) ->
  (let* v := arith (promote (ct c)) r in Ok (wrap (ct c) v)) = ovf c r.
Proof.
  intros H Hs. pose proof (wf_ct c H) as Ht. unfold ovf.
  destruct (Z.leb_spec 32 (bits (ct c))) as [L | L].
  - rewrite sgn_promote_wide by lia. rewrite andb_true_r. unfold arith.
    destruct (sgn (ct c)).
    + change (in_range (ct c) r) with (valid c r). destruct (valid c r) eqn:E; cbn [bind]; auto.
      rewrite valid_wrap by auto. reflexivity.
    + cbn [bind]. rewrite wrap_narrow by (auto; lia). reflexivity.
  - rewrite andb_false_r. unfold promote. replace (bits (ct c) <? 32) with true by lia.
    rewrite arith_ok by auto. reflexivity.
Qed.

Lemma small_bounds c x : wf c = true -> bits (ct c) < 32 -> valid c x = true -> -32768 <= x <= 65535.
Proof.
  intros H L V. destruct (wf_inv c H) as (Hb & _).
  unfold valid, in_range, minv, maxv in V.
  destruct Hb as [E | [E | [E | E]]]; rewrite E in *; destruct (sgn (ct c)); lia.
Qed.

Lemma fx_add_eq c x y : wf c = true -> valid c x = true -> valid c y = true ->
  fx_add c x y = ovf c (x + y).
Proof.
  intros H X Y. unfold fx_add, c_add. rewrite uac_refl, !wrap_p by auto.
  apply arith_ovf; auto. intros L.
  pose proof (small_bounds c x H L X). pose proof (small_bounds c y H L Y).
  unfold in_range, minv, maxv; cbn; lia.
Qed.
Lemma fx_sub_eq c x y : wf c = true -> valid c x = true -> valid c y = true ->
  fx_sub c x y = ovf c (x - y).
Proof.
  intros H X Y. unfold fx_sub, c_sub. rewrite uac_refl, !wrap_p by auto.
  apply arith_ovf; auto. intros L.
  pose proof (small_bounds c x H L X). pose proof (small_bounds c y H L Y).
  unfold in_range, minv, maxv; cbn; lia.
Qed.
Lemma fx_neg_eq c x : wf c = true -> valid c x = true -> fx_neg c x = ovf c (- x).
Proof.
  intros H X. unfold fx_neg, c_neg.
  apply arith_ovf; auto. intros L.
  pose proof (small_bounds c x H L X).
  unfold in_range, minv, maxv; cbn; lia.
Qed.

(** ** products *)
Lemma prod_ci c x y : wf c = true -> valid c x = true -> valid c y = true ->
  in_range (ci c) (x * y) = true /\ in_range (ci c) (x * y + 1) = true.
Proof.
  intros H X Y. pose proof (wf_pows c H) as W. cbv zeta in W.
  destruct (wf_bnd c H) as (Hb & Ht & Hi & Hs & Hg & Hf).
  destruct (valid_bounds c x H X) as (X1 & X2 & X3).
  destruct (valid_bounds c y H Y) as (Y1 & Y2 & Y3).
  remember (2 ^ (bits (ct c) - 1)) as P.
  unfold in_range, minv, maxv. rewrite Hg. destruct (sgn (ct c)).
  - specialize (X2 eq_refl). specialize (Y2 eq_refl).
    assert (- (P * P) <= x * y <= P * P) by nia. nia.
  - specialize (X3 eq_refl). specialize (Y3 eq_refl).
    assert (0 <= x * y <= (2 * P - 1) * (2 * P - 1)) by nia. nia.
Qed.

Lemma c_mul_it c x y : wf c = true -> valid c x = true -> valid c y = true ->
  c_mul (ci c) (ct c) (wrap (ci c) x) y = Ok (x * y).
Proof.
  intros H X Y. unfold c_mul. change (uac (ci c) (ct c)) with (it c). rewrite it_eq by auto.
  rewrite wrap_ci, !wrap_it by auto. apply arith_ok.
  - auto using promote_ok, wf_ci.
  - apply promote_range; [auto using wf_ci|]. apply prod_ci; auto.
Qed.

Lemma c_shr_it c x : wf c = true -> c_shr (it c) x (cf c) = Ok (x / 2 ^ cf c).
Proof.
  intros H. rewrite it_eq by auto. destruct (wf_bnd c H) as (Hb & Ht & Hi & Hs & Hg & Hf).
  pose proof (promote_bits _ Hi). unfold c_shr. rewrite promote_promote, shiftr_div by lia.
  replace ((0 <=? cf c) && (cf c <? bits (promote (ci c)))) with true by lia. reflexivity.
Qed.

Lemma fx_mul_eq c x y : wf c = true -> cr c = false -> valid c x = true -> valid c y = true ->
  fx_mul c x y = Ok (wrap (ct c) (x * y / 2 ^ cf c)).
Proof.
  intros H R X Y. unfold fx_mul. rewrite R, c_mul_it by auto. cbn [bind].
  rewrite c_shr_it by auto. reflexivity.
Qed.

(** ** quotients *)
Lemma shifted_ci c x : wf c = true -> valid c x = true ->
  in_range (ci c) (x * 2 ^ cf c) = true.
Proof.
  intros H X. pose proof (wf_pows c H) as W. cbv zeta in W.
  destruct (wf_bnd c H) as (Hb & Ht & Hi & Hs & Hg & Hf).
  destruct (valid_bounds c x H X) as (X1 & X2 & X3).
  remember (2 ^ (bits (ct c) - 1)) as P. remember (2 ^ cf c) as F.
  unfold in_range, minv, maxv. rewrite Hg. destruct (sgn (ct c)).
  - specialize (X2 eq_refl).
    assert (- (P * P) <= x * F <= P * P) by nia. nia.
  - specialize (X3 eq_refl).
    assert (0 <= x * F <= (2 * P - 1) * P) by nia. nia.
Qed.
Lemma shifted_bounds c x : wf c = true -> valid c x = true ->
  let I := 2 ^ (bits (ci c) - 1) in
  (sgn (ct c) = true -> - I <= 2 * (x * 2 ^ cf c) < I) /\
  (sgn (ct c) = false -> 0 <= 2 * (x * 2 ^ cf c) < 2 * I).
Proof.
  intros H X I. pose proof (wf_pows c H) as W. cbv zeta in W.
  destruct (valid_bounds c x H X) as (X1 & X2 & X3). fold I in W.
  remember (2 ^ (bits (ct c) - 1)) as P. remember (2 ^ cf c) as F.
  split; intros S.
  - specialize (X2 S). split; nia.
  - specialize (X3 S). split; nia.
Qed.

Lemma uac_ci_ct c : wf c = true -> uac (promote (ci c)) (ct c) = promote (ci c).
Proof.
  intros H. rewrite <- (it_eq c) at 2 by auto. unfold it, uac. rewrite promote_promote. reflexivity.
Qed.

Lemma c_shl_ci c x : wf c = true -> valid c x = true ->
  c_shl (ci c) (wrap (ci c) x) (cf c) = Ok (x * 2 ^ cf c).
Proof.
  intros H X. destruct (wf_bnd c H) as (Hb & Ht & Hi & Hs & Hg & Hf).
  pose proof (promote_bits _ Hi). unfold c_shl.
  replace ((0 <=? cf c) && (cf c <? bits (promote (ci c)))) with true by lia.
  rewrite shiftl_mul, wrap_ci by (auto; lia). f_equal. apply wrap_id.
  - apply promote_ok; auto.
  - apply promote_range; auto using shifted_ci.
Qed.

Lemma quot_abs_le a b : b <> 0 -> Z.abs (Z.quot a b) <= Z.abs a.
Proof.
  intros. rewrite <- Z.quot_abs by auto.
  pose proof (Z.quot_le_upper_bound (Z.abs a) (Z.abs b) (Z.abs a) ltac:(lia)).
  destruct (Z.eq_dec b 0); [lia|]. apply H0. nia.
Qed.

Lemma quot_range_u a b : 0 <= a -> 0 < b -> 0 <= Z.quot a b <= a.
Proof.
  intros. split; [apply Z.quot_pos; lia|].
  pose proof (quot_abs_le a b ltac:(lia)). pose proof (Z.quot_pos a b). lia.
Qed.

Lemma quot_between a b : 0 < b -> Z.min a 0 <= Z.quot a b <= Z.max a 0.
Proof.
  intros. destruct (Z_le_gt_dec 0 a).
  - pose proof (quot_range_u a b ltac:(lia) ltac:(lia)). lia.
  - pose proof (quot_range_u (- a) b ltac:(lia) ltac:(lia)) as Q.
    rewrite Z.quot_opp_l in Q by lia. lia.
Qed.

Lemma fx_div_zero c x y : wf c = true -> valid c x = true -> y = 0 -> fx_div c x y = UB.
Proof.
  intros H X ->. unfold fx_div.
  assert (Z0 : forall a, c_div (promote (ci c)) (ct c) a 0 = UB).
  { intros. unfold c_div. rewrite uac_ci_ct by auto.
    rewrite wrap_it by (auto; unfold valid, in_range, minv, maxv;
      pose proof (wf_pows c H) as W; cbv zeta in W; destruct (sgn (ct c)); lia).
    reflexivity. }
  rewrite c_shl_ci by auto. cbn [bind]. rewrite Z0. destruct (cr c); [|reflexivity].
  unfold bind. destruct (c_mul _ _ _ _) eqn:E; auto.
  - rewrite Z0. reflexivity.
  - unfold c_mul, arith in E. repeat match type of E with context [if ?b then _ else _] => destruct b end; discriminate.
  - unfold c_mul, arith in E. repeat match type of E with context [if ?b then _ else _] => destruct b end; discriminate.
Qed.

Lemma fx_div_eq c x y : wf c = true -> cr c = false -> valid c x = true -> valid c y = true ->
  y <> 0 -> fx_div c x y = Ok (wrap (ct c) (Z.quot (x * 2 ^ cf c) y)).
Proof.
  intros H R X Y N. unfold fx_div. rewrite R, c_shl_ci by auto. cbn [bind].
  unfold c_div. rewrite uac_ci_ct by auto. rewrite (wrap_it c y) by auto.
  rewrite wrap_id; [|auto using promote_ok, wf_ci|apply promote_range; auto using wf_ci, shifted_ci].
  replace (y =? 0) with false by lia.
  rewrite arith_ok; [reflexivity|auto using promote_ok, wf_ci|].
  apply promote_range; [auto using wf_ci|].
  pose proof (shifted_bounds c x H X) as (B1 & B2).
  pose proof (wf_pows c H) as W. cbv zeta in W.
  destruct (wf_bnd c H) as (_ & _ & Hi & _ & Hg & _).
  unfold in_range, minv, maxv. rewrite Hg. destruct (sgn (ct c)) eqn:S.
  - specialize (B1 eq_refl). pose proof (quot_abs_le (x * 2 ^ cf c) y N). lia.
  - specialize (B2 eq_refl). destruct (valid_bounds c y H Y) as (_ & _ & Y3).
    specialize (Y3 S). pose proof (quot_range_u (x * 2 ^ cf c) y ltac:(lia) ltac:(lia)). lia.
Qed.

(** ** remainder *)
Lemma fx_rem_eq c x y : wf c = true -> valid c x = true -> valid c y = true ->
  fx_rem c x y =
    if y =? 0 then UB
    else if sgn (ct c) && (32 <=? bits (ct c)) && negb (valid c (Z.quot x y)) then UB
    else Ok (Z.rem x y).
Proof.
  intros H X Y. unfold fx_rem, c_rem. rewrite uac_refl, !wrap_p by auto.
  destruct (Z.eqb_spec y 0) as [->|N]; [reflexivity|].
  assert (VR : valid c (Z.rem x y) = true).
  { pose proof (Z.rem_bound_abs x y N).
    pose proof (Zrem_sgn2 x y).
    destruct (valid_bounds c x H X) as (X1 & X2 & X3).
    destruct (valid_bounds c y H Y) as (Y1 & Y2 & Y3).
    pose proof (wf_pows c H) as W. cbv zeta in W.
    unfold valid, in_range, minv, maxv in *. destruct (sgn (ct c)).
    - lia.
    - specialize (X3 eq_refl). specialize (Y3 eq_refl).
      pose proof (Z.rem_nonneg x y N ltac:(lia)). lia. }
  destruct (Z.leb_spec 32 (bits (ct c))) as [L|L].
  - rewrite sgn_promote_wide by lia. rewrite andb_true_r.
    change (in_range (ct c)) with (valid c).
    destruct (sgn (ct c) && negb (valid c (Z.quot x y))); cbn [bind]; auto.
    rewrite valid_wrap; auto.
  - rewrite andb_false_r. cbn [andb]. unfold promote. replace (bits (ct c) <? 32) with true by lia.
    assert (in_range int32 (Z.quot x y) = true) as ->.
    { pose proof (quot_abs_le x y N). pose proof (small_bounds c x H L X).
      unfold in_range, minv, maxv; cbn. lia. }
    cbn. rewrite valid_wrap; auto.
Qed.

(** ** rounding variants *)
Lemma uac_int32_r t : uac (promote t) int32 = promote t \/ bits (promote t) < 32.
Proof.
  unfold uac, promote. destruct (Z.ltb_spec (bits t) 32); [left; reflexivity|].
  left. replace (bits t <? 32) with false by lia. cbn [bits sgn int32].
  destruct (sgn t) eqn:S; cbn.
  - replace (bits t <? 32) with false by lia. reflexivity.
  - replace (32 <=? bits t) with true by lia. reflexivity.
Qed.
Lemma uac_i32 t : ity_ok t = true -> uac (promote t) int32 = promote t.
Proof. intros H. destruct (uac_int32_r t); auto. pose proof (promote_bits t H). lia. Qed.
Lemma uac_i32' t : ity_ok t = true -> uac t int32 = promote t.
Proof. intros H. rewrite <- (uac_i32 t H). unfold uac. rewrite promote_promote. reflexivity. Qed.

Lemma in_range_small t k : ity_ok t = true -> 0 <= k <= 127 -> in_range t k = true.
Proof.
  intros H K. apply ity_ok_bits in H. unfold in_range, minv, maxv.
  destruct (sgn t); destruct H as [-> | [-> | [-> | [-> | ->]]]]; lia.
Qed.

Lemma round_tail_eq c v : wf c = true -> in_range (ci c) v = true ->
  (in_range (ci c) (v + Z.rem v 2) = true) ->
  round_tail c v = Ok (wrap (ct c) (v + Z.rem v 2)).
Proof.
  intros H V V2. unfold round_tail. rewrite it_eq by auto. pose proof (wf_ci c H) as Hi.
  pose proof (promote_ok _ Hi) as Hp.
  unfold c_rem, c_add. rewrite uac_i32, uac_pp by auto.
  rewrite !(wrap_id _ v) by (auto using promote_range).
  rewrite (wrap_id _ 2) by (auto; apply in_range_small; auto; lia).
  change (2 =? 0) with false.
  assert (Q : in_range (promote (ci c)) (Z.quot v 2) = true).
  { apply promote_range; auto. pose proof (quot_abs_le v 2 ltac:(lia)).
    unfold in_range, minv, maxv in *. destruct (ity_ok_pow _ Hi).
    pose proof (quot_between v 2 ltac:(lia)).
    destruct (sgn (ci c)); lia. }
  rewrite Q, andb_false_r. cbn [bind].
  assert (R : in_range (promote (ci c)) (Z.rem v 2) = true).
  { apply promote_range; auto. pose proof (Z.rem_bound_abs v 2 ltac:(lia)).
    pose proof (Zrem_sgn2 v 2).
    unfold in_range, minv, maxv in *. destruct (ity_ok_pow _ Hi).
    pose proof (ity_ok_bits _ Hi).
    assert (128 <= 2 ^ (bits (ci c) - 1)) by (change 128 with (2 ^ 7); apply Z.pow_le_mono_r; lia).
    destruct (sgn (ci c)); [lia|]. pose proof (Z.rem_nonneg v 2 ltac:(lia) ltac:(lia)). lia. }
  rewrite (wrap_id _ (Z.rem v 2)) by auto.
  rewrite arith_ok by (auto using promote_range). reflexivity.
Qed.

Lemma half_multiplier c : wf c = true ->
  c_div (ci c) int32 (2 ^ cf c) 2 = Ok (2 ^ (cf c - 1)).
Proof.
  intros H. pose proof (wf_pows c H) as W. cbv zeta in W.
  destruct (wf_bnd c H) as (Hb & Ht & Hi & Hs & Hg & Hf).
  pose proof (promote_ok _ Hi) as Hp.
  assert (R : forall k, 0 <= k <= cf c -> in_range (promote (ci c)) (2 ^ k) = true).
  { intros k K. apply promote_range; auto. unfold in_range, minv, maxv.
    pose proof (Z.pow_le_mono_r 2 k (cf c) ltac:(lia) ltac:(lia)). pose proof (pow2_pos k ltac:(lia)).
    destruct (sgn (ci c)); nia. }
  unfold c_div. rewrite uac_i32' by auto.
  rewrite (wrap_id _ (2 ^ cf c)) by (auto; apply R; lia).
  rewrite (wrap_id _ 2) by (auto; apply in_range_small; auto; lia).
  change (2 =? 0) with false.
  assert (E : 2 ^ cf c = 2 ^ (cf c - 1) * 2).
  { replace (cf c) with ((cf c - 1) + 1) at 1 by lia. rewrite Z.pow_add_r by lia. lia. }
  assert (EQ : Z.quot (2 ^ cf c) 2 = 2 ^ (cf c - 1)) by (rewrite E; apply Z.quot_mul; lia).
  cbv iota. rewrite EQ. apply arith_ok; auto. apply R. lia.
Qed.

Lemma fx_mul_round_eq c x y : wf c = true -> cr c = true -> valid c x = true -> valid c y = true ->
  fx_mul c x y =
    let v := Z.quot (x * y) (2 ^ (cf c - 1)) in Ok (wrap (ct c) (v + Z.rem v 2)).
Proof.
  intros H R X Y. unfold fx_mul. rewrite R, c_mul_it by auto. cbn [bind].
  rewrite fm_ok by auto. cbn [bind]. rewrite half_multiplier by auto. cbn [bind].
  destruct (wf_bnd c H) as (Hb & Ht & Hi & Hs & Hg & Hf).
  pose proof (wf_pows c H) as W. cbv zeta in W.
  pose proof (promote_ok _ Hi) as Hp.
  pose proof (pow2_pos (cf c - 1) ltac:(zlia)) as P1.
  assert (P2 : 2 ^ (cf c - 1) <= 2 ^ cf c) by (apply Z.pow_le_mono_r; zlia).
  unfold c_div. rewrite it_eq, uac_pp by auto.
  rewrite (wrap_id _ (x * y)); [|auto|apply promote_range; auto; apply prod_ci; auto].
  rewrite (wrap_id _ (2 ^ (cf c - 1))); [|auto|apply promote_range; auto; unfold in_range, minv, maxv; destruct (sgn (ci c)); nia].
  replace (2 ^ (cf c - 1) =? 0) with false by zlia.
  destruct (valid_bounds c x H X) as (X1 & X2 & X3).
  destruct (valid_bounds c y H Y) as (Y1 & Y2 & Y3).
  set (v := Z.quot (x * y) (2 ^ (cf c - 1))).
  assert (V : in_range (ci c) v = true /\ in_range (ci c) (v + Z.rem v 2) = true).
  { pose proof (quot_abs_le (x * y) (2 ^ (cf c - 1)) ltac:(zlia)) as Q. fold v in Q.
    pose proof (Z.rem_bound_abs v 2 ltac:(zlia)).
    remember (2 ^ (bits (ct c) - 1)) as P.
    unfold in_range, minv, maxv. rewrite Hg. destruct (sgn (ct c)).
    - specialize (X2 eq_refl). specialize (Y2 eq_refl).
      assert (- (P * P) <= x * y <= P * P) by znia.
      assert (128 * P <= P * P).
      { apply Z.mul_le_mono_nonneg_r; [zlia|]. subst P. change 128 with (2 ^ 7). apply Z.pow_le_mono_r; zlia. }
      assert (128 <= P) by (subst P; change 128 with (2 ^ 7); apply Z.pow_le_mono_r; zlia).
      zlia.
    - specialize (X3 eq_refl). specialize (Y3 eq_refl).
      assert (0 <= x * y <= (2 * P - 1) * (2 * P - 1)) by znia.
      pose proof (quot_range_u (x * y) (2 ^ (cf c - 1)) ltac:(zlia) ltac:(zlia)) as Q2. fold v in Q2.
      pose proof (Z.rem_nonneg v 2 ltac:(zlia) ltac:(zlia)).
      assert (128 <= P) by (subst P; change 128 with (2 ^ 7); apply Z.pow_le_mono_r; zlia).
      znia. }
  destruct V as [V1 V2].
  rewrite arith_ok by (auto using promote_range). cbn [bind].
  apply round_tail_eq; auto.
Qed.

(** ** casts to floating point and between fixed types *)
Lemma fx_to_float_eq c m : wf c = true -> valid c m = true ->
  fx_to_float c m = Ok (Z.quot m (2 ^ cf c)).
Proof.
  intros H V. unfold fx_to_float. rewrite fm_ok by auto. cbn [bind].
  destruct (wf_bnd c H) as (Hb & Ht & Hi & Hs & Hg & Hf).
  pose proof (wf_pows c H) as W. cbv zeta in W.
  pose proof (promote_ok _ Hi) as Hp.
  assert (U : uac (ct c) (ci c) = promote (ci c)).
  { clear W V. destruct (wf_inv c H) as (Hb' & _).
    apply ity_ok_bits in Hi. unfold uac. destruct c as [[b s] [b' s'] f r].
    cbn [ct ci cf cr bits sgn] in *. subst s'. unfold promote; cbn [bits sgn].
    destruct Hb' as [-> | [-> | [-> | ->]]]; destruct Hi as [-> | [-> | [-> | [-> | ->]]]];
      try lia; destruct s; reflexivity. }
  unfold c_div. rewrite U, (wrap_it c m) by auto.
  rewrite (wrap_id _ (2 ^ cf c)); [|auto|apply promote_range; auto; unfold in_range, minv, maxv; destruct (sgn (ci c)); nia].
  replace (2 ^ cf c =? 0) with false by zlia.
  assert (VQ : valid c (Z.quot m (2 ^ cf c)) = true).
  { pose proof (quot_abs_le m (2 ^ cf c) ltac:(zlia)) as Q.
    pose proof (quot_between m (2 ^ cf c) ltac:(zlia)).
    unfold valid, in_range, minv, maxv in *. destruct (sgn (ct c)); lia. }
  rewrite arith_ok by (auto using valid_it). cbn [bind]. rewrite valid_wrap by auto. reflexivity.
Qed.

(** ** "plain" outcomes: completion or undefined behaviour, but neither a throw nor fuel loss *)
Definition plain {A} (r : res A) : Prop := match r with Ok _ | UB => True | _ => False end.
Lemma plain_bind {A B} (m : res A) (f : A -> res B) :
  plain m -> (forall a, plain (f a)) -> plain (bind m f).
Proof. destruct m; cbn; auto. Qed.
Lemma plain_arith t r : plain (arith t r).
Proof. unfold arith. destruct (sgn t); [destruct (in_range t r)|]; exact I. Qed.
Lemma plain_add t1 t2 x y : plain (c_add t1 t2 x y). Proof. apply plain_arith. Qed.
Lemma plain_sub t1 t2 x y : plain (c_sub t1 t2 x y). Proof. apply plain_arith. Qed.
Lemma plain_mul t1 t2 x y : plain (c_mul t1 t2 x y). Proof. apply plain_arith. Qed.
Lemma plain_div t1 t2 x y : plain (c_div t1 t2 x y).
Proof. unfold c_div. cbv zeta. destruct (_ =? 0); [exact I | apply plain_arith]. Qed.
Lemma plain_rem t1 t2 x y : plain (c_rem t1 t2 x y).
Proof. unfold c_rem. cbv zeta. destruct (_ =? 0); [exact I|]. destruct (_ && _); exact I. Qed.
Lemma plain_neg t x : plain (c_neg t x). Proof. apply plain_arith. Qed.
Lemma plain_shl t x s : plain (c_shl t x s).
Proof. unfold c_shl. cbv zeta. destruct (_ && _); exact I. Qed.
Lemma plain_shr t x s : plain (c_shr t x s).
Proof. unfold c_shr. cbv zeta. destruct (_ && _); exact I. Qed.
Lemma plain_ok {A} (a : A) : plain (Ok a). Proof. exact I. Qed.
Lemma plain_throw {A} (r : res A) e : plain r -> r <> Throw e.
Proof. destruct r; cbn; congruence. Qed.
#[export] Hint Resolve plain_bind plain_add plain_sub plain_mul plain_div plain_rem plain_neg
  plain_shl plain_shr plain_ok : plain.
Ltac plain := repeat first [ apply plain_bind; [|intro] | solve [auto with plain] ].

Lemma plain_round_tail c v : plain (round_tail c v). Proof. unfold round_tail. plain. Qed.
Lemma plain_fm c : plain (fraction_multiplier c). Proof. unfold fraction_multiplier. plain. Qed.
#[export] Hint Resolve plain_round_tail plain_fm : plain.
Lemma plain_fx_mul c x y : plain (fx_mul c x y).
Proof. unfold fx_mul. destruct (cr c); plain. Qed.
Lemma plain_fx_div c x y : plain (fx_div c x y).
Proof. unfold fx_div. destruct (cr c); plain. Qed.
Lemma plain_fx_add c x y : plain (fx_add c x y). Proof. unfold fx_add. plain. Qed.
Lemma plain_fx_sub c x y : plain (fx_sub c x y). Proof. unfold fx_sub. plain. Qed.
Lemma plain_fx_neg c x : plain (fx_neg c x). Proof. unfold fx_neg. plain. Qed.
Lemma plain_fx_rem c x y : plain (fx_rem c x y). Proof. unfold fx_rem. plain. Qed.
Lemma plain_fx_of_int c n : plain (fx_of_int c n). Proof. unfold fx_of_int. plain. Qed.
Lemma plain_from c f t v : plain (from_fixed_num_value c f t v).
Proof. unfold from_fixed_num_value. destruct (f >? cf c); [|plain]. plain. destruct (cr c); plain. Qed.
#[export] Hint Resolve plain_fx_mul plain_fx_div plain_fx_add plain_fx_sub plain_fx_neg plain_fx_rem
  plain_fx_of_int plain_from : plain.
