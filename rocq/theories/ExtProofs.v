(** Proofs about ext::int128 and the SIMD helpers (C88-C90, C105-C107). *)
From Coq Require Import ZArith QArith Bool List Lia.
From Verif Require Import Base BaseLemmas Fixed Spec SpecLemmas Ext SpecExt.
Import ListNotations.
Open Scope Z_scope.

(** ---- ext::int128 ---- *)
(** the number a pair of words denotes in two's complement *)

Lemma r64 v : in_range int64 v = true <-> - 2 ^ 63 <= v <= 2 ^ 63 - 1.
Proof. unfold in_range, minv, maxv. cbn [sgn int64 bits]. change (64 - 1) with 63. lia. Qed.
Lemma w64 v : in_range int64 v = true -> wrap int64 v = v.
Proof. apply wrap_id. reflexivity. Qed.
Lemma add64 a b : in_range int64 a = true -> in_range int64 b = true -> c_add int64 int64 a b = if in_range int64 (a + b) then Ok (a + b) else UB.
Proof. intros A B. unfold c_add. change (uac int64 int64) with int64. rewrite !w64 by auto. reflexivity. Qed.

Lemma xadd_eq a b : xok a -> xok b ->
  xint_add a b = if in_range int64 (x_high a + x_high b) && in_range int64 (x_low a + x_low b)
                 then Ok {| x_high := x_high a + x_high b; x_low := x_low a + x_low b |} else UB.
Proof.
  intros [A1 A2] [B1 B2]. unfold xint_add. rewrite !add64 by auto.
  destruct (in_range int64 (x_high a + x_high b)) eqn:E1; cbn [bind andb]; [|reflexivity].
  destruct (in_range int64 (x_low a + x_low b)) eqn:E2; cbn [bind]; [|reflexivity].
  unfold xint_pair. rewrite !w64 by auto. reflexivity.
Qed.
Lemma xadd_value a b r : xok a -> xok b -> xint_add a b = Ok r ->
  xval r = xval a + xval b - (if 2 ^ 64 <=? x_low a mod 2 ^ 64 + x_low b mod 2 ^ 64 then 2 ^ 64 else 0).
Proof.
  intros A B. rewrite xadd_eq by auto. destruct (_ && _); [|discriminate]. intros E. injection E as <-. unfold xval. cbn [x_high x_low].
  rewrite Zplus_mod. pose proof (Z.mod_pos_bound (x_low a) (2 ^ 64) ltac:(lia)). pose proof (Z.mod_pos_bound (x_low b) (2 ^ 64) ltac:(lia)).
  destruct (Z.leb_spec (2 ^ 64) (x_low a mod 2 ^ 64 + x_low b mod 2 ^ 64)) as [L|L].
  - rewrite <- (Z.mod_add _ (-1)) by lia. rewrite Z.mod_small; lia.
  - rewrite Z.mod_small; lia.
Qed.
Lemma xadd_refuted_carry : exists a b r, xok a /\ xok b /\ xval a = 2 ^ 64 - 1 /\ xval b = 1 /\ xint_add a b = Ok r /\ xval r = 0.
Proof.
  exists {| x_high := 0; x_low := -1 |}, {| x_high := 0; x_low := 1 |}. eexists. split; [split; reflexivity|]. split; [split; reflexivity|].
  split; [reflexivity|]. split; [reflexivity|]. split; reflexivity.
Qed.
Lemma xadd_refuted_ub : exists a b, xok a /\ xok b /\ xval a = 2 ^ 63 - 1 /\ xval b = 1 /\ xint_add a b = UB.
Proof.
  exists {| x_high := 0; x_low := 2 ^ 63 - 1 |}, {| x_high := 0; x_low := 1 |}. split; [split; reflexivity|]. split; [split; reflexivity|].
  split; [reflexivity|]. split; reflexivity.
Qed.
Lemma xof_value v : - 2 ^ 63 <= v < 2 ^ 64 -> xval (xint_of v) = if v <? 0 then v + 2 ^ 64 else v.
Proof.
  intros H. unfold xval, xint_of. cbn [x_high x_low]. unfold wrap. cbn [sgn int64 bits]. change (64 - 1) with 63.
  rewrite Z.mul_0_l, Z.add_0_l, Zminus_mod_idemp_l.
  replace (v + 2 ^ 63 - 2 ^ 63) with v by lia. destruct (Z.ltb_spec v 0).
  - rewrite <- (Z.mod_add v 1) by lia. rewrite Z.mod_small; lia.
  - rewrite Z.mod_small; lia.
Qed.
Lemma xof_refuted : exists v, in_range int64 v = true /\ xval (xint_of v) <> v.
Proof. exists (-1). split; [reflexivity|]. vm_compute. discriminate. Qed.
Lemma xint_roundtrip v : in_range int64 v = true -> xint_to_int64 (xint_of v) = v.
Proof. intros H. unfold xint_to_int64, xint_of. cbn. apply w64; auto. Qed.
Lemma xint_sat a : xok a -> 0 <= x_low a \/ 0 < x_high a \/ xval a < - 2 ^ 63 ->
  x_high a <> -1 \/ xval a < - 2 ^ 63 ->
  xint_to_int64 a = Z.max (minv int64) (Z.min (maxv int64) (xval a)).
Proof.
  intros [H1 H2] L N. apply r64 in H1, H2. unfold xint_to_int64, xval in *. change (minv int64) with (- 2 ^ 63). change (maxv int64) with (2 ^ 63 - 1).
  pose proof (Z.mod_pos_bound (x_low a) (2 ^ 64) ltac:(lia)).
  destruct (Z.gtb_spec (x_high a) 0); [lia|]. destruct (Z.ltb_spec (x_high a) 0).
  - lia.
  - assert (x_high a = 0) as E by lia. rewrite E in *. rewrite (Z.mod_small (x_low a)) by lia. lia.
Qed.
Lemma xint_sat_refuted : exists a, xok a /\ xval a = -1 /\ xint_to_int64 a = - 2 ^ 63.
Proof. exists {| x_high := -1; x_low := -1 |}. repeat split. Qed.
Lemma xint_sat_refuted' : exists a, xok a /\ xval a = 2 ^ 63 /\ xint_to_int64 a = - 2 ^ 63.
Proof. exists {| x_high := 0; x_low := - 2 ^ 63 |}. repeat split. Qed.

(** ---- SIMD ---- *)
Lemma lxor_ones x : 0 <= x < M64 -> Z.lxor x (M64 - 1) = M64 - 1 - x.
Proof.
  intros H. change (M64 - 1) with (Z.ones 64).
  assert (B : forall i, 64 <= i -> Z.testbit x i = false).
  { intros i I. destruct (Z.eq_dec x 0) as [->|]; [apply Z.bits_0|]. apply Z.bits_above_log2; [lia|].
    apply Z.lt_le_trans with 64; [|auto]. apply Z.log2_lt_pow2; [lia|]. apply H. }
  rewrite Z.sub_nocarry_ldiff.
  - apply Z.bits_inj'. intros i I. rewrite Z.lxor_spec, Z.ldiff_spec. destruct (Z_lt_ge_dec i 64).
    + rewrite Z.ones_spec_low by lia. destruct (Z.testbit x i); reflexivity.
    + rewrite Z.ones_spec_high, B by lia. reflexivity.
  - apply Z.bits_inj'. intros i I. rewrite Z.ldiff_spec, Z.bits_0. destruct (Z_lt_ge_dec i 64).
    + rewrite Z.ones_spec_low by lia. apply andb_false_r.
    + rewrite B by lia. reflexivity.
Qed.
(** conditional negation with an all-ones or all-zero mask *)
Definition cneg (s : bool) (x : Z) : Z := if s then (- x) mod M64 else x.
Lemma mask_neg x (s : bool) : 0 <= x < M64 ->
  mm_sub (mm_xor x (mm_sub 0 (if s then 1 else 0))) (mm_sub 0 (if s then 1 else 0)) = cneg s x.
Proof.
  intros H. destruct s; unfold mm_sub, mm_xor, cneg.
  - change ((0 - 1) mod M64) with (M64 - 1). rewrite lxor_ones by auto. f_equal. lia.
  - change ((0 - 0) mod M64) with 0. rewrite Z.lxor_0_r, Z.sub_0_r. apply Z.mod_small; auto.
Qed.
Lemma lane_ok v : 0 <= lane v < M64.
Proof. apply Z.mod_pos_bound. reflexivity. Qed.
Lemma lane_sign v : in_range int64 v = true -> mm_srli (lane v) 63 = if v <? 0 then 1 else 0.
Proof.
  intros H. apply r64 in H. unfold mm_srli, lane. destruct (Z.ltb_spec v 0).
  - rewrite <- (Z.mod_add v 1) by discriminate. rewrite Z.mod_small by (unfold M64; lia). symmetry.
    apply Z.div_unique with (v + 2 ^ 63); unfold M64; lia.
  - rewrite Z.mod_small by (unfold M64; lia). apply Z.div_small. lia.
Qed.
Lemma lane_abs v : in_range int64 v = true -> cneg (v <? 0) (lane v) = Z.abs v.
Proof.
  intros H. apply r64 in H. unfold cneg, lane. destruct (Z.ltb_spec v 0).
  - rewrite <- (Z.mod_add v 1) by discriminate. rewrite (Z.mod_small (v + 1 * M64)) by (unfold M64; lia).
    replace (- (v + 1 * M64)) with (- v + (-1) * M64) by lia. rewrite Z.mod_add by discriminate. rewrite Z.mod_small by (unfold M64; lia). lia.
  - rewrite Z.mod_small by (unfold M64; lia). lia.
Qed.
Lemma unlane_cneg s x k : x mod M64 = k mod M64 -> 0 <= x < M64 -> unlane (cneg s x) = wrap int64 (if s then - k else k).
Proof.
  intros E R. unfold unlane, cneg.
  assert (W : forall a b, a mod M64 = b mod M64 -> wrap int64 a = wrap int64 b).
  { intros a b AB. unfold wrap. cbn [sgn int64 bits]. f_equal. change (2 ^ 64) with M64. rewrite Zplus_mod, AB, <- Zplus_mod. reflexivity. }
  destruct s; apply W; [|exact E]. rewrite Z.mod_mod by discriminate. rewrite <- !(Z.sub_0_l), Zminus_mod, E, <- Zminus_mod. reflexivity.
Qed.

(** the fallback multiplication, for all lanes *)
Lemma fallback_eq a b : in_range int64 a = true -> in_range int64 b = true ->
  unlane (mullo_fallback (lane a) (lane b)) = wrap int64 (Z.quot (a * b) (2 ^ 32)).
Proof.
  intros A B. unfold mullo_fallback. cbv zeta. rewrite !lane_sign by auto.
  replace (if a <? 0 then 1 else 0) with (if (a <? 0) then 1 else 0) by reflexivity.
  rewrite !mask_neg by apply lane_ok. rewrite !lane_abs by auto.
  apply r64 in A as RA. apply r64 in B as RB.
  set (x := Z.abs a). set (y := Z.abs b). assert (X : 0 <= x <= 2 ^ 63) by (unfold x; lia). assert (Y : 0 <= y <= 2 ^ 63) by (unfold y; lia).
  change (lane 4294967295) with (Z.ones 32). unfold mm_and. rewrite !Z.land_ones by lia. unfold mm_srli at 1 2 3 4, mm_mul_epu32.
  set (xh := x / 2 ^ 32). set (xl := x mod 2 ^ 32). set (yh := y / 2 ^ 32). set (yl := y mod 2 ^ 32).
  assert (XH : 0 <= xh <= 2 ^ 31) by (unfold xh; split; [apply Z.div_pos; lia|apply Z.lt_succ_r, Z.div_lt_upper_bound; lia]).
  assert (YH : 0 <= yh <= 2 ^ 31) by (unfold yh; split; [apply Z.div_pos; lia|apply Z.lt_succ_r, Z.div_lt_upper_bound; lia]).
  assert (XL : 0 <= xl < 2 ^ 32) by (apply Z.mod_pos_bound; lia). assert (YL : 0 <= yl < 2 ^ 32) by (apply Z.mod_pos_bound; lia).
  rewrite !(Z.mod_small xh), !(Z.mod_small yh), !(Z.mod_small xl), !(Z.mod_small yl) by lia.
  set (res := mm_add _ _).
  assert (RR : 0 <= res < M64) by (apply Z.mod_pos_bound; reflexivity).
  assert (RE : res mod M64 = (x * y / 2 ^ 32) mod M64).
  { unfold res, mm_add, mm_slli, mm_srli. rewrite Z.mod_mod by discriminate. 
    rewrite !Zplus_mod_idemp_l. rewrite <- Z.add_assoc, Zplus_mod_idemp_l, (Z.add_comm ((xh * yh * 2 ^ 32) mod M64)), Z.add_assoc, Zplus_mod_idemp_r.
    f_equal. assert (EX : x = xh * 2 ^ 32 + xl) by (unfold xh, xl; rewrite Z.mul_comm; apply Z.div_mod; lia).
    assert (EY : y = yh * 2 ^ 32 + yl) by (unfold yh, yl; rewrite Z.mul_comm; apply Z.div_mod; lia).
    rewrite EX, EY. replace ((xh * 2 ^ 32 + xl) * (yh * 2 ^ 32 + yl)) with (xl * yl + (xh * yh * 2 ^ 32 + xh * yl + xl * yh) * 2 ^ 32) by ring.
    rewrite Z.div_add by lia. ring. }
  replace (mm_xor (mm_sub 0 (if a <? 0 then 1 else 0)) (mm_sub 0 (if b <? 0 then 1 else 0)))
    with (mm_sub 0 (if xorb (a <? 0) (b <? 0) then 1 else 0)) by (destruct (a <? 0), (b <? 0); reflexivity).
  rewrite mask_neg by auto. rewrite (unlane_cneg _ _ _ RE RR). f_equal.
  destruct (Z.ltb_spec a 0) as [NA|NA], (Z.ltb_spec b 0) as [NB|NB]; cbn [xorb]; unfold x, y.
  - rewrite quot_pos_div by nia. f_equal. nia.
  - rewrite quot_neg_div by nia. f_equal. f_equal. nia.
  - rewrite quot_neg_div by nia. f_equal. f_equal. nia.
  - rewrite quot_pos_div by nia. f_equal. nia.
Qed.

(** integer part toward zero, exact for every lane *)
Lemma fpint_eq x : in_range int64 x = true -> unlane (fpint (lane x)) = Z.quot x (2 ^ 32) * 2 ^ 32.
Proof.
  intros A. unfold fpint. cbv zeta. rewrite lane_sign by auto. rewrite (mask_neg (lane x)) by apply lane_ok. rewrite lane_abs by auto.
  apply r64 in A as RA. set (n := Z.abs x / 2 ^ 32).
  assert (N : 0 <= n <= 2 ^ 31) by (unfold n; split; [apply Z.div_pos; lia|apply Z.lt_succ_r, Z.div_lt_upper_bound; lia]).
  unfold mm_slli, mm_srli. fold n. rewrite (Z.mod_small (n * 2 ^ 32)) by (unfold M64; lia). rewrite mask_neg by (unfold M64; lia).
  rewrite (unlane_cneg _ _ (n * 2 ^ 32)) by (unfold M64; lia || reflexivity).
  pose proof (Z.mul_div_le (Z.abs x) (2 ^ 32) ltac:(lia)). fold n in H.
  destruct (Z.ltb_spec x 0).
  - rewrite quot_neg_div by lia. replace (- x / 2 ^ 32) with n by (unfold n; f_equal; lia). rewrite w64; [lia|]. apply r64. lia.
  - rewrite quot_pos_div by lia. replace (x / 2 ^ 32) with n by (unfold n; f_equal; lia). rewrite w64; [lia|]. apply r64. lia.
Qed.
Lemma lane_unlane v : 0 <= v < M64 -> lane (unlane v) = v.
Proof.
  intros H. unfold lane, unlane, wrap. cbn [sgn int64 bits]. change (2 ^ 64) with M64. rewrite Zminus_mod_idemp_l. change (64 - 1) with 63.
  replace (v + 2 ^ 63 - 2 ^ 63) with v by lia. apply Z.mod_small; auto.
Qed.

(** one lane of the angle reduction: exact modulo the raw constant *)
Lemma lane_of v k : 0 <= v < M64 -> unlane v = k -> v = lane k.
Proof. intros H <-. symmetry. apply lane_unlane; auto. Qed.
Lemma cneg_ok s x : 0 <= x < M64 -> 0 <= cneg s x < M64.
Proof. intros H. unfold cneg. destruct s; auto. apply Z.mod_pos_bound. reflexivity. Qed.
Lemma mm_sub_ok a b : 0 <= mm_sub a b < M64.
Proof. apply Z.mod_pos_bound. reflexivity. Qed.
Lemma quot_abs a b : 0 < b -> Z.abs (Z.quot a b) = Z.abs a / b.
Proof.
  intros H. destruct (Z_le_gt_dec 0 a).
  - rewrite quot_pos_div by lia. rewrite !Z.abs_eq; auto. apply Z.div_pos; lia.
  - rewrite quot_neg_div by lia. rewrite Z.abs_opp, (Z.abs_neq a) by lia. apply Z.abs_eq. apply Z.div_pos; lia.
Qed.
Definition TP := 26986075408.
Definition IV := 683565275.
Lemma avx_reduce_eq x : in_range int64 x = true ->
  exists n, unlane (avx_reduce false TP IV (lane x)) = x - n * TP /\ n = Z.quot (x * IV) (2 ^ 64).
Proof.
  intros A. apply r64 in A as RA. unfold avx_reduce, simd_mul. cbv zeta.
  set (q1 := Z.quot (x * IV) (2 ^ 32)).
  assert (Q1 : Z.abs q1 <= 2 ^ 62).
  { unfold q1. rewrite quot_abs by lia. apply Z.lt_succ_r, Z.div_lt_upper_bound; unfold IV; lia. }
  assert (R1 : in_range int64 q1 = true) by (apply r64; lia).
  assert (E1 : mullo_fallback (lane x) (lane IV) = lane q1).
  { apply lane_of; [apply mm_sub_ok|]. rewrite fallback_eq by (auto; reflexivity). apply w64; auto. }
  rewrite E1. set (n := Z.quot q1 (2 ^ 32)).
  assert (N : n = Z.quot (x * IV) (2 ^ 64)) by (unfold n, q1; rewrite Z.quot_quot by lia; reflexivity).
  exists n. split; [|exact N].
  assert (NB : Z.abs n * TP <= Z.abs x).
  { rewrite N, quot_abs by lia. rewrite Z.abs_mul. change (Z.abs IV) with IV.
    apply Z.mul_le_mono_pos_r with (2 ^ 64); [lia|].
    pose proof (Z.mul_div_le (Z.abs x * IV) (2 ^ 64) ltac:(lia)).
    assert (Z.abs x * IV * TP <= Z.abs x * 2 ^ 64) by (rewrite <- Z.mul_assoc; apply Z.mul_le_mono_nonneg_l; [lia|]; vm_compute; discriminate).
    unfold TP in *. lia. }
  assert (E2 : fpint (lane q1) = lane (n * 2 ^ 32)).
  { apply lane_of; [apply mm_sub_ok|]. apply fpint_eq; auto. }
  rewrite E2.
  assert (NR : in_range int64 (n * 2 ^ 32) = true).
  { apply r64. unfold n. pose proof (Z.quot_rem' q1 (2 ^ 32)). pose proof (Z.rem_bound_abs q1 (2 ^ 32) ltac:(lia)). lia. }
  assert (E3 : mullo_fallback (lane (n * 2 ^ 32)) (lane TP) = lane (n * TP)).
  { apply lane_of; [apply mm_sub_ok|]. rewrite fallback_eq by (auto; reflexivity).
    replace (n * 2 ^ 32 * TP) with (n * TP * 2 ^ 32) by ring. rewrite Z.quot_mul by lia. apply w64. apply r64. unfold TP in *. lia. }
  rewrite E3. unfold mm_sub, lane. rewrite <- Zminus_mod. fold (lane (x - n * TP)).
  unfold unlane. unfold lane. unfold wrap. cbn [sgn int64 bits]. change (2 ^ 64) with M64. rewrite Zplus_mod_idemp_l.
  assert (S : (0 <= x -> 0 <= n) /\ (x <= 0 -> n <= 0)).
  { rewrite N. split; intros X.
    - apply Z.quot_pos; unfold IV; lia.
    - rewrite quot_neg_div by (unfold IV; lia). assert (0 <= (- (x * IV)) / 2 ^ 64) by (apply Z.div_pos; unfold IV; lia). lia. }
  change (64 - 1) with 63. rewrite Z.mod_small by (unfold M64, TP in *; destruct (Z_le_gt_dec 0 x); lia). lia.
Qed.
Lemma avx_bounds x n : in_range int64 x = true -> n = Z.quot (x * IV) (2 ^ 64) ->
  (0 <= x -> 0 <= n /\ 0 <= x - n * TP /\ (x - n * TP) * 2 ^ 64 < TP * (2 ^ 64 + x)) /\
  (x <= 0 -> n <= 0 /\ x - n * TP <= 0 /\ TP * (- 2 ^ 64 + x) < (x - n * TP) * 2 ^ 64).
Proof.
  assert (P : forall x, 0 <= x <= 2 ^ 63 -> let n := x * IV / 2 ^ 64 in 0 <= n /\ 0 <= x - n * TP /\ (x - n * TP) * 2 ^ 64 < TP * (2 ^ 64 + x)).
  { clear. intros x X n. pose proof (Z.div_mod (x * IV) (2 ^ 64) ltac:(lia)) as D. pose proof (Z.mod_pos_bound (x * IV) (2 ^ 64) ltac:(lia)) as B.
    fold n in D. set (m := (x * IV) mod 2 ^ 64) in *. assert (0 <= n) by (apply Z.div_pos; unfold IV; lia).
    unfold TP, IV in *. split; [auto|]. split; lia. }
  intros R ->. apply r64 in R. split; intros X.
  - rewrite quot_pos_div by (unfold IV; lia). apply P. lia.
  - rewrite quot_neg_div by (unfold IV; lia). replace (- (x * IV)) with (- x * IV) by ring. specialize (P (- x) ltac:(lia)). cbv zeta in P. lia.
Qed.
(** SSE variant on integers: nothing is reduced, and the lanes come out swapped *)
Lemma sse_int k : sse_reduce TP IV (lane (k * 2 ^ 32)) = lane (k * 2 ^ 32).
Proof.
  unfold sse_reduce, mm_mul_epi32. cbv zeta.
  assert (E : wrap int32 (lane (k * 2 ^ 32)) = 0).
  { unfold wrap, lane. cbn [sgn int32 bits]. change (32 - 1) with 31. change M64 with (2 ^ 32 * 2 ^ 32). rewrite Zmult_mod_distr_r.
    rewrite Z.add_comm, Z.mod_add by lia. reflexivity. }
  rewrite E. change (lane (wrap int32 (lane (0 * wrap int32 (lane IV))) * wrap int32 (lane TP))) with 0.
  unfold mm_sub. rewrite Z.sub_0_r. apply Z.mod_small. apply lane_ok.
Qed.
Lemma consts : two_pi64 = Ok TP /\ inv_two_pi64 = Ok IV.
Proof. split; vm_compute; reflexivity. Qed.
Lemma reduce2_int a b : in_range int64 (a * 2 ^ 32) = true -> in_range int64 (b * 2 ^ 32) = true ->
  simd_reduce_angle_2 (a * 2 ^ 32, b * 2 ^ 32) = Ok (b * 2 ^ 32, a * 2 ^ 32).
Proof.
  intros A B. unfold simd_reduce_angle_2. rewrite (proj1 consts), (proj2 consts). cbn [bind]. rewrite !sse_int.
  assert (U : forall v, in_range int64 v = true -> unlane (lane v) = v).
  { clear. intros v H. apply r64 in H. unfold unlane, wrap, lane. cbn [sgn int64 bits]. change (2 ^ 64) with M64. rewrite Zplus_mod_idemp_l.
    change (64 - 1) with 63. rewrite Z.mod_small by (unfold M64; lia). lia. }
  rewrite !U by auto. reflexivity.
Qed.
(** AVX-512: exact only when the product of the raw unsigned lanes stays below 2^64 *)
Lemma mullo_512_small a b : 0 <= a < 2 ^ 63 -> 0 <= b < 2 ^ 63 -> a * b < 2 ^ 64 ->
  unlane (mullo_512 (lane a) (lane b)) = Z.quot (a * b) (2 ^ 32).
Proof.
  intros A B P. unfold mullo_512, mm_srli, mm_mullo. unfold lane at 1 2. rewrite (Z.mod_small a), (Z.mod_small b) by (unfold M64; lia).
  rewrite Z.mod_small by (unfold M64; nia). rewrite quot_pos_div by nia. apply w64. apply r64.
  assert (0 <= a * b / 2 ^ 32 < 2 ^ 32) by (split; [apply Z.div_pos; nia|apply Z.div_lt_upper_bound; lia]). lia.
Qed.
Lemma mullo_512_refuted : exists a b, valid F64 a = true /\ valid F64 b = true /\ (qval 32 a == 1)%Q /\ (qval 32 b == 1)%Q /\
  unlane (mullo_512 (lane a) (lane b)) = 0.
Proof. exists (2 ^ 32), (2 ^ 32). repeat split. Qed.
Lemma fallback_trunc a b r : in_range int64 a = true -> in_range int64 b = true ->
  is_trunc 32 (qval 32 a * qval 32 b) r -> fits 64 true r -> unlane (mullo_fallback (lane a) (lane b)) = r.
Proof.
  intros A B T F. rewrite fallback_eq by auto.
  assert (r = Z.quot (a * b) (2 ^ 32)) as ->.
  { assert (E : (qval 32 a * qval 32 b == (a * b) # (pow2p 64))%Q) by (unfold Qeq, Qmult, qval; cbn [Qnum Qden]; reflexivity).
    apply (is_trunc_Qeq _ _ _ _ E) in T. apply is_trunc_iff in T; [|lia]. rewrite T. 
    change (Z.pos (pow2p 64)) with (2 ^ 32 * 2 ^ 32). rewrite Z.quot_mul_cancel_r by lia. reflexivity. }
  apply w64. unfold fits, lo, hi in F. apply r64. exact F.
Qed.
(** compared with operator*: equal when the product is not negative or exact, else one ulp more *)
Lemma fallback_scalar a b r : in_range int64 a = true -> in_range int64 b = true -> fx_mul F64 a b = Ok r ->
  unlane (mullo_fallback (lane a) (lane b)) = wrap int64 (r + (if (a * b <? 0) && negb ((a * b) mod 2 ^ 32 =? 0) then 1 else 0)).
Proof.
  intros A B M. rewrite fallback_eq by auto. apply r64 in A, B. unfold fx_mul in M. cbn [cr F64 ci ct cf] in M.
  unfold c_mul in M. change (uac int128 int64) with int128 in M.
  assert (W : forall v, - 2 ^ 127 <= v < 2 ^ 127 -> wrap int128 v = v).
  { intros v V. apply wrap_id; [reflexivity|]. unfold in_range, minv, maxv. cbn [sgn int128 bits]. change (128 - 1) with 127. lia. }
  rewrite (W a), (W a), (W b) in M by lia.
  unfold arith in M. cbn [sgn int128] in M.
  assert (P : - 2 ^ 126 <= a * b <= 2 ^ 126) by (change (2 ^ 126) with (2 ^ 63 * 2 ^ 63); nia).
  replace (in_range int128 (a * b)) with true in M
    by (symmetry; unfold in_range, minv, maxv; cbn [sgn int128 bits]; change (2 ^ (128 - 1)) with (2 * 2 ^ 126); lia).
  cbn [bind] in M. change (c_shr (it F64) (a * b) 32) with (Ok (Z.shiftr (a * b) 32)) in M. cbn [bind] in M. injection M as <-.
  rewrite Z.shiftr_div_pow2 by lia.
  assert (WW : forall x y, wrap int64 (wrap int64 x + y) = wrap int64 (x + y)).
  { intros x y. unfold wrap. cbn [sgn int64 bits]. f_equal. change (64 - 1) with 63.
    replace ((x + 2 ^ 63) mod 2 ^ 64 - 2 ^ 63 + y + 2 ^ 63) with ((x + 2 ^ 63) mod 2 ^ 64 + y) by lia.
    rewrite Zplus_mod_idemp_l. f_equal. lia. }
  rewrite WW. f_equal. set (p := a * b) in *. pose proof (Z.div_mod p (2 ^ 32) ltac:(lia)) as D. pose proof (Z.mod_pos_bound p (2 ^ 32) ltac:(lia)) as MB.
  destruct (Z.ltb_spec p 0); cbn [andb].
  - rewrite quot_neg_div by lia. destruct (Z.eqb_spec (p mod 2 ^ 32) 0) as [E|E]; cbn [negb].
    + rewrite Z.div_opp_l_z by (lia || exact E). lia.
    + rewrite Z.div_opp_l_nz by (lia || exact E). lia.
  - rewrite quot_pos_div by lia. lia.
Qed.
