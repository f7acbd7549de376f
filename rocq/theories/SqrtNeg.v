(** The 32-bit square root of a negative argument. *)
From Coq Require Import ZArith QArith Lia Bool.
From Verif Require Import Base Fixed Math Spec BaseLemmas FixedLemmas CLemmas MathProofs SqrtProofs MathThms.
Open Scope Z_scope.
Notation p64 := 18446744073709551616.
Notation p63 := 9223372036854775808.
Notation p33 := 8589934592.
Notation p32 := 4294967296.

Lemma w64 x : 0 <= x < p64 -> wrap uint64 x = x.
Proof. intros H. apply wrap_id; [reflexivity|]. apply u64_r. exact H. Qed.
Lemma r64 x : 0 <= x < p64 -> in_range uint64 x = true.
Proof. intros H. apply u64_r. exact H. Qed.
Lemma add64 x y : 0 <= x < p64 -> 0 <= y < p64 -> x + y < p64 -> c_add uint64 uint64 x y = Ok (x + y).
Proof.
  intros. unfold c_add. change (uac uint64 uint64) with uint64. cbv zeta. rewrite (w64 x), (w64 y) by lia. unfold arith. change (sgn uint64) with false. cbv iota.
  rewrite w64 by lia. reflexivity.
Qed.
Lemma sub64 x y : 0 <= x < p64 -> 0 <= y <= x -> c_sub uint64 uint64 x y = Ok (x - y).
Proof.
  intros. unfold c_sub. change (uac uint64 uint64) with uint64. cbv zeta. rewrite (w64 x), (w64 y) by lia. unfold arith. change (sgn uint64) with false. cbv iota.
  rewrite w64 by lia. reflexivity.
Qed.
Lemma trial_big q b v : 0 <= q -> 0 <= b -> q + 2 * b <= p33 -> p33 <= v < p64 -> sqrt_trial q b v = Ok (v - (q + b), q + 2 * b).
Proof.
  intros Q B QB V. unfold sqrt_trial. rewrite add64 by lia. cbn [bind].
  rewrite g_le with (p := uint64) by (first [reflexivity|apply r64; lia]).
  replace (q + b <=? v) with true by lia. rewrite sub64 by lia. cbn [bind]. rewrite add64 by lia. cbn [bind]. do 2 f_equal. ring.
Qed.
Lemma shl1 W A : (W = p64 \/ W = p63) -> 0 < A <= p63 -> c_shl uint64 (W - A) 1 = Ok (p64 - 2 * A).
Proof.
  intros HW HA. unfold c_shl. cbn [bits uint64 promote]. change ((0 <=? 1) && (1 <? bits (promote uint64))) with true. cbv iota. cbv zeta.
  f_equal. rewrite Z.shiftl_mul_pow2 by lia. change (promote uint64) with uint64. change (2 ^ 1) with 2.
  destruct HW as [-> | ->].
  - apply wrap_unique with (k := -1); [reflexivity|apply r64; lia|change (2 ^ bits uint64) with p64; ring].
  - rewrite w64 by lia. ring.
Qed.

Lemma loop3_big : forall (k fuel : nat) q A W, (k <= 25)%nat -> (k <= fuel)%nat -> (W = p64 \/ W = p63) -> (W = p64 -> 0 < A) -> 0 <= A ->
  let n := Z.of_nat (5 + k) in (A + p33) * 2 ^ Z.of_nat k <= 4611686018427387904 -> 0 <= q -> q + 2 ^ (n + 2) <= p32 ->
  sqrt_loop3 fuel q (2 ^ n) (W - A) = Ok (q + 2 ^ (n + 2) - 128).
Proof.
  induction k as [|k IH]; intros fuel q A W Hk Hf HW HA A0 n PA Q0 QN.
  - subst n. change (2 ^ Z.of_nat (5 + 0)) with 32. change (2 ^ (Z.of_nat (5 + 0) + 2)) with 128.
    destruct fuel; cbn [sqrt_loop3]; change (c_lt int32 uint64 32 32) with false; cbv iota; f_equal; ring.
  - destruct fuel as [|fuel]; [lia|]. cbn [sqrt_loop3]. unfold n at 1. rewrite lt_b by lia.
    assert (E : 2 ^ n = 2 * 2 ^ Z.of_nat (5 + k)) by (unfold n; replace (5 + S k)%nat with (S (5 + k)) by lia; rewrite Nat2Z.inj_succ, Z.pow_succ_r by lia; reflexivity).
    assert (E2 : 2 ^ (n + 2) = 4 * 2 ^ n) by (rewrite Z.pow_add_r by lia; change (2 ^ 2) with 4; ring).
    assert (E3 : 2 ^ (Z.of_nat (5 + k) + 2) = 4 * 2 ^ Z.of_nat (5 + k)) by (rewrite Z.pow_add_r by lia; change (2 ^ 2) with 4; ring).
    assert (P5 : 32 <= 2 ^ Z.of_nat (5 + k)).
    { change 32 with (2 ^ 5). apply Z.pow_le_mono_r; lia. }
    fold n. replace (32 <? 2 ^ n) with true by (symmetry; apply Z.ltb_lt; lia).
    assert (PK : 1 <= 2 ^ Z.of_nat k) by (change 1 with (2 ^ 0); apply Z.pow_le_mono_r; lia).
    assert (PA' : (A + p33) * (2 * 2 ^ Z.of_nat k) <= 4611686018427387904).
    { rewrite Nat2Z.inj_succ, Z.pow_succ_r in PA by lia. exact PA. }
    assert (AB : A + p33 <= 2305843009213693952) by nia.
    rewrite trial_big by (clear - E2 Q0 QN P5 E AB HW HA A0; lia). cbn [bind].
    replace (W - A - (q + 2 ^ n)) with (W - (A + q + 2 ^ n)) by ring.
    rewrite shl1 by (auto; clear - E2 Q0 QN P5 E AB A0; lia). cbn [bind].
    rewrite u64_shr by lia. cbn [bind]. unfold n at 2. replace (5 + S k)%nat with (S (5 + k)) by lia. rewrite half_p.
    rewrite (IH fuel (q + 2 * 2 ^ n) (2 * (A + q + 2 ^ n)) p64); try lia; auto.
    + f_equal. lia.
    + assert (2 * (A + q + 2 ^ n) + p33 <= 2 * (A + p33)) by (clear - E2 QN P5 E; lia). clear - H PA' PK. nia.
Qed.

Lemma shr1_p64 A : 0 < A -> (p64 - A) / 2 ^ 1 = p63 - (A + 1) / 2.
Proof.
  intros HA. change (2 ^ 1) with 2. pose proof (Z.div_mod (A + 1) 2 ltac:(lia)). pose proof (Z.mod_pos_bound (A + 1) 2 ltac:(lia)).
  symmetry. apply (Z.div_unique_pos (p64 - A) 2 _ (1 - (A + 1) mod 2)); lia.
Qed.

Definition neg_root (r : Z) : Prop := r = 2 ^ 24 - 1 \/ exists j, 1 <= j <= 24 /\ r = 2 ^ 24 + 2 ^ (24 - j) - 1.

Lemma loop2_big : forall (k fuel : nat) q A, (k <= 24)%nat -> (k <= fuel)%nat -> 0 < A ->
  let n := Z.of_nat (6 + k) in (A + p33) * 2 ^ Z.of_nat (S k) <= 4611686018427387904 -> q + 2 ^ (n + 2) = p32 ->
  exists r, sqrt_loop2 fuel q (2 ^ n) (p64 - A) = Ok r /\ neg_root r.
Proof.
  induction k as [|k IH]; intros fuel q A Hk Hf HA n PA QN.
  - subst n. change (2 ^ Z.of_nat (6 + 0)) with 64. change (2 ^ (Z.of_nat (6 + 0) + 2)) with 256 in QN.
    replace q with 4294967040 by lia. exists 16777215. split; [|left; reflexivity].
    destruct fuel; cbn [sqrt_loop2]; change (c_lt int32 uint64 64 64) with false; cbv iota; rewrite u64_shr by lia; reflexivity.
  - destruct fuel as [|fuel]; [lia|]. cbn [sqrt_loop2]. unfold n at 1. rewrite lt_b by lia.
    assert (E : 2 ^ n = 2 * 2 ^ Z.of_nat (6 + k)) by (unfold n; replace (6 + S k)%nat with (S (6 + k)) by lia; rewrite Nat2Z.inj_succ, Z.pow_succ_r by lia; reflexivity).
    assert (E2 : 2 ^ (n + 2) = 4 * 2 ^ n) by (rewrite Z.pow_add_r by lia; change (2 ^ 2) with 4; ring).
    assert (E3 : 2 ^ (Z.of_nat (6 + k) + 2) = 4 * 2 ^ Z.of_nat (6 + k)) by (rewrite Z.pow_add_r by lia; change (2 ^ 2) with 4; ring).
    assert (P5 : 64 <= 2 ^ Z.of_nat (6 + k) <= 536870912).
    { split; [change 64 with (2 ^ 6)|change 536870912 with (2 ^ 29)]; apply Z.pow_le_mono_r; lia. }
    fold n. replace (64 <? 2 ^ n) with true by (symmetry; apply Z.ltb_lt; lia).
    assert (PK : 1 <= 2 ^ Z.of_nat k) by (change 1 with (2 ^ 0); apply Z.pow_le_mono_r; lia).
    assert (S1 : 2 ^ Z.of_nat (S k) = 2 * 2 ^ Z.of_nat k) by (rewrite Nat2Z.inj_succ, Z.pow_succ_r by lia; reflexivity).
    assert (S2 : 2 ^ Z.of_nat (S (S k)) = 4 * 2 ^ Z.of_nat k) by (rewrite Nat2Z.inj_succ, Z.pow_succ_r by lia; rewrite S1; ring).
    rewrite S2 in PA.
    assert (AB : A + p33 <= 1152921504606846976) by nia.
    rewrite trial_big by (clear - E2 QN P5 E AB HA; lia). cbn [bind].
    replace (p64 - A - (q + 2 ^ n)) with (p64 - (A + q + 2 ^ n)) by ring. set (A1 := A + q + 2 ^ n) in *.
    assert (A1B : A < A1 /\ A1 + p32 <= A + p33) by (unfold A1; clear - E2 QN P5 E; lia).
    destruct (negb (c_and uint64 uint32 (p64 - A1) 2147483648 =? 0)).
    + rewrite !u64_shr by lia. cbn [bind]. rewrite shr1_p64 by lia. unfold n at 2. replace (6 + S k)%nat with (S (5 + S k)) by lia. rewrite half_p.
      replace ((q + 2 * 2 ^ n) / 2 ^ 1) with (2147483648 - 2 ^ n).
      2:{ change (2 ^ 1) with 2. apply Z.div_unique_exact; [lia|]. clear - E2 QN. lia. }
      assert (L3 := loop3_big (S k) 64 (2147483648 - 2 ^ n) ((A1 + 1) / 2) p63 ltac:(lia) ltac:(lia) (or_intror eq_refl) ltac:(discriminate)).
      cbv zeta in L3. rewrite L3; clear L3.
      * cbn [bind]. rewrite u64_shr by lia. eexists. split; [reflexivity|]. right.
        assert (N7 : 2 ^ n = 2 ^ 7 * 2 ^ (n - 7)) by (rewrite <- Z.pow_add_r by lia; f_equal; lia).
        exists (24 - (n - 7)). split; [lia|]. replace (24 - (24 - (n - 7))) with (n - 7) by ring.
        change (2 ^ 7) with 128 in *. change (2 ^ 24) with 16777216.
        replace (2 ^ (Z.of_nat (5 + S k) + 2)) with (2 * 2 ^ n).
        2:{ replace (Z.of_nat (5 + S k) + 2) with (n + 1) by lia. rewrite Z.pow_add_r by lia. change (2 ^ 1) with 2. ring. }
        symmetry. apply Z.div_unique_exact; [lia|]. rewrite N7. ring.
      * apply Z.div_pos; lia.
      * rewrite S1. assert ((A1 + 1) / 2 + p33 <= 2 * (A + p33)); [|clear - H PA PK; nia].
        pose proof (Z.div_le_upper_bound (A1 + 1) 2 A1 ltac:(lia) ltac:(lia)). lia.
      * lia.
      * replace (2 ^ (Z.of_nat (5 + S k) + 2)) with (2 * 2 ^ n); [lia|].
        replace (Z.of_nat (5 + S k) + 2) with (n + 1) by lia. rewrite Z.pow_add_r by lia. change (2 ^ 1) with 2. ring.
    + rewrite shl1 by (auto; lia). cbn [bind]. rewrite u64_shr by lia. cbn [bind]. unfold n at 2. replace (6 + S k)%nat with (S (6 + k)) by lia. rewrite half_p.
      apply IH; lia.
Qed.

Lemma sqrt32_neg m : valid F32 m = true -> (qval 16 m < 0)%Q -> exists r, fx_sqrt F32 m = Ok r /\ neg_root r.
Proof.
  intros V H. apply qval_neg in H. unfold fx_sqrt. change (sgn (ct F32) && (bits (ct F32) =? 32)) with true. cbv iota.
  unfold sqrt_int32. change (cf F32) with 16. change (16 >? 16) with false. cbv iota.
  assert (E : c_shl (ct F32) m (16 - 16) = Ok m).
  { unfold c_shl. change ((0 <=? 16 - 16) && (16 - 16 <? bits (promote (ct F32)))) with true. cbv iota. cbv zeta.
    change (16 - 16) with 0. rewrite Z.shiftl_0_r. change (promote (ct F32)) with int32. rewrite wrap_id; auto. }
  rewrite E. cbn [bind]. apply in_range_iff in V. change (minv (ct F32)) with (-2147483648) in V.
  assert (EW : wrap uint64 m = p64 - (- m)).
  { apply wrap_unique with (k := 1); [reflexivity|apply r64; lia|change (2 ^ bits uint64) with p64; ring]. }
  rewrite EW.
  assert (L : c_lt uint64 int32 (p64 - - m) 1073742336 = false).
  { rewrite g_lt with (p := uint64); [|reflexivity|reflexivity|apply r64|apply r64]; lia. }
  rewrite L. change 1073741824 with (2 ^ Z.of_nat (6 + 24)).
  destruct (loop2_big 24 64 0 (- m) ltac:(lia) ltac:(lia) ltac:(lia)) as (r & -> & NR).
  - change (2 ^ Z.of_nat 25) with 33554432. lia.
  - reflexivity.
  - cbn [bind]. exists r. split; [|exact NR]. unfold from_internal_value. f_equal. apply wrap_id; [reflexivity|].
    apply in_range_iff. change (minv (ct F32)) with (-2147483648). change (maxv (ct F32)) with 2147483647.
    destruct NR as [-> |(j & Hj & ->)]; [cbn; lia|].
    assert (1 <= 2 ^ (24 - j)) by (change 1 with (2 ^ 0); apply Z.pow_le_mono_r; lia).
    assert (2 ^ (24 - j) <= 2 ^ 24) by (apply Z.pow_le_mono_r; lia). change (2 ^ 24) with 16777216 in *. lia.
Qed.
Lemma sqrt32_neg_thm m : valid F32 m = true -> (qval 16 m < 0)%Q ->
  exists r, fx_sqrt F32 m = Ok r /\ valid F32 r = true /\ (255 < qval 16 r)%Q /\ (qval 16 r < 384)%Q.
Proof.
  intros V H. destruct (sqrt32_neg m V H) as (r & E & NR). exists r. split; [exact E|].
  assert (B : 16777215 <= r <= 25165823).
  { destruct NR as [-> |(j & Hj & ->)]; [cbn; lia|].
    assert (1 <= 2 ^ (24 - j)) by (change 1 with (2 ^ 0); apply Z.pow_le_mono_r; lia).
    assert (2 ^ (24 - j) <= 2 ^ 23) by (apply Z.pow_le_mono_r; lia). change (2 ^ 24) with 16777216. change (2 ^ 23) with 8388608 in *. lia. }
  split; [apply in_range_iff; cbn; lia|]. unfold qval, Qlt; cbn [Qnum Qden]. change (Zpos (pow2p 16)) with 65536. lia.
Qed.
