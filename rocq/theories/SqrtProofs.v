(** The bit-hack square root for int32_t: loop invariants and exactness (C33). *)
From Coq Require Import ZArith Bool List Lia ZifyBool QArith.
From Verif Require Import Base Fixed Math Spec BaseLemmas SpecLemmas FixedLemmas CLemmas MathProofs.
Open Scope Z_scope.

Lemma u64_ok : ity_ok uint64 = true. Proof. reflexivity. Qed.
Lemma u64_r x : 0 <= x < 2 ^ 64 -> in_range uint64 x = true.
Proof. intros. apply in_range_iff. change (minv uint64) with 0. change (maxv uint64) with (2 ^ 64 - 1). lia. Qed.
Lemma u64_uac : uac uint64 uint64 = uint64. Proof. reflexivity. Qed.

Lemma u64_shl x : 0 <= x < 2 ^ 63 -> c_shl uint64 x 1 = Ok (2 * x).
Proof.
  intros. unfold c_shl. change (bits (promote uint64)) with 64. cbn [Z.leb Z.ltb andb Z.compare Pos.compare Pos.compare_cont].
  change (promote uint64) with uint64. rewrite shiftl_mul by lia. change (2 ^ 1) with 2. rewrite wrap_id; [f_equal; lia|reflexivity|].
  apply u64_r. change (2 ^ 64) with (2 * 2 ^ 63). lia.
Qed.
Lemma u64_shr x s : 0 <= s < 64 -> c_shr uint64 x s = Ok (x / 2 ^ s).
Proof.
  intros. unfold c_shr. change (bits (promote uint64)) with 64.
  replace ((0 <=? s) && (s <? 64)) with true by lia. rewrite shiftr_div by lia. reflexivity.
Qed.

(** One trial subtraction: bit [b] is added to the root [R] of [N] if it fits. *)
Lemma trial_ok N R b v :
  0 <= R -> 0 < b -> 0 <= v -> R + b <= 2 ^ 40 -> v * b = N - R * R -> N < (R + 2 * b) * (R + 2 * b) ->
  exists R1 v1, sqrt_trial (2 * R) b v = Ok (v1, 2 * R1) /\ v1 * b = N - R1 * R1 /\ 0 <= v1 /\
    N < (R1 + b) * (R1 + b) /\ v1 < 2 * R1 + b /\ v1 <= v /\
    ((R1 = R /\ v1 = v /\ N < (R + b) * (R + b)) \/
     (R1 = R + b /\ v1 = v - (2 * R + b) /\ (R + b) * (R + b) <= N)).
Proof.
  intros HR Hb Hv HB HI HN.
  assert (VB : v < 4 * R + 4 * b) by nia.
  change (2 ^ 40) with 1099511627776 in HB.
  unfold sqrt_trial.
  rewrite (g_add uint64 uint64 uint64 (2 * R) b u64_ok u64_uac) by (apply u64_r; change (2 ^ 64) with 18446744073709551616; lia).
  cbn [bind].
  rewrite (g_le uint64 uint64 uint64 _ v u64_ok u64_uac) by (apply u64_r; change (2 ^ 64) with 18446744073709551616; lia).
  destruct (Z.leb_spec (2 * R + b) v) as [L|L].
  - rewrite (g_sub uint64 uint64 uint64 v _ u64_ok u64_uac) by (apply u64_r; change (2 ^ 64) with 18446744073709551616; lia).
    cbn [bind].
    rewrite (g_add uint64 uint64 uint64 _ b u64_ok u64_uac) by (apply u64_r; change (2 ^ 64) with 18446744073709551616; lia).
    cbn [bind]. exists (R + b), (v - (2 * R + b)).
    assert (E1 : (v - (2 * R + b)) * b = N - (R + b) * (R + b)) by (clear - HI; nia).
    assert (E2 : N < (R + b + b) * (R + b + b)) by (clear - HN; nia).
    assert (E3 : v - (2 * R + b) < 2 * (R + b) + b) by (clear - E1 E2 Hb; nia).
    split; [f_equal; f_equal; clear; lia|]. split; [exact E1|]. split; [clear - L; lia|]. split; [exact E2|].
    split; [exact E3|]. split; [clear - HR Hb; lia|]. right. repeat split; auto. clear - HI L Hb; nia.
  - exists R, v.
    assert (E2 : N < (R + b) * (R + b)) by (clear - HI L Hb; nia).
    split; [reflexivity|]. split; [exact HI|]. split; [auto|]. split; [exact E2|]. split; [exact L|]. split; [lia|].
    left. auto.
Qed.

Lemma half_pow n : 0 <= n -> 2 ^ (n + 1) / 2 ^ 1 = 2 ^ n /\ 2 ^ (n + 1) = 2 * 2 ^ n.
Proof.
  intros. rewrite Z.pow_add_r by lia. change (2 ^ 1) with 2. split; [|lia].
  rewrite Z.div_mul by lia. reflexivity.
Qed.

Lemma div_trans_2 a b : (b | a) -> exists k, a = k * b.
Proof. intros [k E]. exists k. auto. Qed.

(** ** first loop *)
Lemma loop1_ok N : forall (n fuel : nat) R v,
  (n <= fuel)%nat -> 0 <= R -> 0 <= v -> R + 2 * 2 ^ (6 + Z.of_nat n) <= 2 ^ 40 ->
  v * 2 ^ (6 + Z.of_nat n) = N - R * R ->
  N < (R + 2 * 2 ^ (6 + Z.of_nat n)) * (R + 2 * 2 ^ (6 + Z.of_nat n)) ->
  (2 * 2 ^ (6 + Z.of_nat n) | R) ->
  exists r, sqrt_loop1 fuel (2 * R) (2 ^ (6 + Z.of_nat n)) v = Ok (2 * (r * 2 ^ 7)) /\ 0 <= r /\
    (r * 2 ^ 7) * (r * 2 ^ 7) <= N < ((r + 1) * 2 ^ 7) * ((r + 1) * 2 ^ 7).
Proof.
  induction n as [|n IH]; intros fuel R v Hf HR Hv HB HI HN HD.
  - change (6 + Z.of_nat 0) with 6 in *.
    assert (E : c_eq uint64 int32 (2 ^ 6) 64 = true) by reflexivity.
    destruct HD as [k ->]. exists k.
    split. { destruct fuel; cbn [sqrt_loop1]; rewrite E; f_equal; change (2 ^ 7) with (2 * 2 ^ 6); lia. }
    change (2 ^ 7) with (2 * 2 ^ 6). change (2 ^ 6) with 64 in *. nia.
  - destruct fuel as [|fuel]; [lia|].
    set (b := 2 ^ (6 + Z.of_nat (S n))) in *.
    set (b' := 2 ^ (6 + Z.of_nat n)).
    assert (EB : b = 2 * b').
    { unfold b, b'. replace (6 + Z.of_nat (S n)) with (6 + Z.of_nat n + 1) by lia. apply half_pow; lia. }
    assert (PB : 64 <= b'). { unfold b'. change 64 with (2 ^ 6). apply Z.pow_le_mono_r; lia. }
    cbn [sqrt_loop1]. fold b.
    assert (NE : c_eq uint64 int32 b 64 = false).
    { rewrite (g_eq uint64 int32 uint64 b 64 u64_ok eq_refl).
      - apply Z.eqb_neq. lia.
      - apply u64_r. change (2 ^ 64) with 18446744073709551616. change (2 ^ 40) with 1099511627776 in HB. lia.
      - reflexivity. }
    rewrite NE.
    destruct (trial_ok N R b v HR ltac:(lia) Hv ltac:(lia) HI HN) as (R1 & v1 & ET & E1 & V1 & N1 & B1 & _ & C).
    rewrite ET. cbv beta iota delta [bind].
    assert (R1B : 0 <= R1 <= R + b) by (clear - C HR EB PB; lia).
    change (2 ^ 40) with 1099511627776 in HB.
    rewrite u64_shl by (change (2 ^ 63) with 9223372036854775808; clear - B1 R1B HB V1 EB PB; lia).
    rewrite u64_shr by lia. change (2 ^ 1) with 2. replace (b / 2) with b' by (rewrite EB, Z.mul_comm, Z.div_mul; lia).
    apply (IH fuel R1 (2 * v1)); try (fold b'); try (clear - Hf V1 R1B; lia).
    + change (2 ^ 40) with 1099511627776. clear - HB R1B EB PB C HD; lia.
    + rewrite EB in E1. clear - E1; lia.
    + rewrite <- EB. exact N1.
    + rewrite <- EB. destruct HD as [k Ek]. destruct C as [(-> & _)|(-> & _)].
      * exists (2 * k). clear - Ek; lia.
      * exists (2 * k + 1). clear - Ek; lia.
Qed.

(** ** third loop (halved) *)
Lemma loop3_ok N : forall (n fuel : nat) R v,
  (n <= fuel)%nat -> 0 <= R -> 0 <= v -> R + 2 * 2 ^ (5 + Z.of_nat n) <= 2 ^ 40 ->
  v * 2 ^ (5 + Z.of_nat n) = N - R * R ->
  N < (R + 2 * 2 ^ (5 + Z.of_nat n)) * (R + 2 * 2 ^ (5 + Z.of_nat n)) ->
  (2 * 2 ^ (5 + Z.of_nat n) | R) \/
    ((0 < n)%nat /\ (2 ^ (5 + Z.of_nat n) | R) /\ N < (R + 2 ^ (5 + Z.of_nat n)) * (R + 2 ^ (5 + Z.of_nat n))) ->
  exists r, sqrt_loop3 fuel (2 * R) (2 ^ (5 + Z.of_nat n)) v = Ok (2 * (r * 2 ^ 6)) /\ 0 <= r /\
    (r * 2 ^ 6) * (r * 2 ^ 6) <= N < ((r + 1) * 2 ^ 6) * ((r + 1) * 2 ^ 6).
Proof.
  induction n as [|n IH]; intros fuel R v Hf HR Hv HB HI HN HD.
  - change (5 + Z.of_nat 0) with 5 in *.
    assert (E : c_lt int32 uint64 32 (2 ^ 5) = false) by reflexivity.
    destruct HD as [[k ->]|[F _]]; [|exfalso; lia]. exists k.
    split. { destruct fuel; cbn [sqrt_loop3]; rewrite E; f_equal; change (2 ^ 6) with (2 * 2 ^ 5); lia. }
    change (2 ^ 6) with (2 * 2 ^ 5). change (2 ^ 5) with 32 in *. nia.
  - destruct fuel as [|fuel]; [lia|].
    set (b := 2 ^ (5 + Z.of_nat (S n))) in *.
    set (b' := 2 ^ (5 + Z.of_nat n)).
    assert (EB : b = 2 * b').
    { unfold b, b'. replace (5 + Z.of_nat (S n)) with (5 + Z.of_nat n + 1) by lia. apply half_pow; lia. }
    assert (PB : 32 <= b'). { unfold b'. change 32 with (2 ^ 5). apply Z.pow_le_mono_r; lia. }
    cbn [sqrt_loop3]. fold b.
    assert (NE : c_lt int32 uint64 32 b = true).
    { rewrite (g_lt int32 uint64 uint64 32 b u64_ok eq_refl).
      - apply Z.ltb_lt. lia.
      - reflexivity.
      - apply u64_r. change (2 ^ 64) with 18446744073709551616. change (2 ^ 40) with 1099511627776 in HB. lia. }
    rewrite NE.
    destruct (trial_ok N R b v HR ltac:(lia) Hv ltac:(lia) HI HN) as (R1 & v1 & ET & E1 & V1 & N1 & B1 & _ & C).
    rewrite ET. cbv beta iota delta [bind].
    assert (R1B : 0 <= R1 <= R + b) by (clear - C HR EB PB; lia).
    change (2 ^ 40) with 1099511627776 in HB.
    rewrite u64_shl by (change (2 ^ 63) with 9223372036854775808; clear - B1 R1B HB V1 EB PB; lia).
    rewrite u64_shr by lia. change (2 ^ 1) with 2. replace (b / 2) with b' by (rewrite EB, Z.mul_comm, Z.div_mul; lia).
    apply (IH fuel R1 (2 * v1)); try (fold b'); try (clear - Hf V1 R1B; lia).
    + change (2 ^ 40) with 1099511627776. clear - HB R1B EB PB C HD; lia.
    + rewrite EB in E1. clear - E1; lia.
    + rewrite <- EB. exact N1.
    + left. rewrite <- EB. destruct C as [(-> & _)|(-> & _ & C)].
      * destruct HD as [[k Ek]|(_ & [k Ek] & _)]; [exists (2 * k)|exists k]; clear - Ek; lia.
      * destruct HD as [[k Ek]|(_ & _ & F)].
        -- exists (2 * k + 1). clear - Ek; lia.
        -- exfalso. clear - C F. lia.
Qed.

Lemma land_bit31 v : 0 <= v -> Z.land v 2147483648 <> 0 -> 2 ^ 31 <= v.
Proof.
  intros Hv H. destruct (Z.le_gt_cases (2 ^ 31) v) as [L|L]; [exact L|]. exfalso. apply H.
  change 2147483648 with (2 ^ 31). apply Z.bits_inj'. intros k Hk.
  rewrite Z.land_spec, Z.bits_0, Z.pow2_bits_eqb by lia. destruct (Z.eqb_spec 31 k) as [<-|]; [|apply andb_false_r].
  rewrite andb_true_r. destruct (Z.eq_dec v 0) as [->|]; [apply Z.bits_0|]. apply Z.bits_above_log2; [lia|].
  apply Z.log2_lt_pow2; lia.
Qed.

(** ** second loop *)
Lemma loop2_ok V : 0 <= V < 2 ^ 31 -> forall (n fuel : nat) R v,
  (n <= fuel)%nat -> (n <= 24)%nat -> 0 <= R -> 0 <= v -> R + 2 * 2 ^ (6 + Z.of_nat n) <= 2 ^ 40 ->
  v * 2 ^ (6 + Z.of_nat n) = 2 ^ 30 * V - R * R ->
  2 ^ 30 * V < (R + 2 * 2 ^ (6 + Z.of_nat n)) * (R + 2 * 2 ^ (6 + Z.of_nat n)) ->
  (2 * 2 ^ (6 + Z.of_nat n) | R) -> (2 | v) \/ v < 2 ^ 31 /\ n = 24%nat ->
  exists r, sqrt_loop2 fuel (2 * R) (2 ^ (6 + Z.of_nat n)) v = Ok r /\ 0 <= r /\
    r * r <= 2 ^ 16 * V < (r + 1) * (r + 1).
Proof.
  intros HV. induction n as [|n IH]; intros fuel R v Hf Hn HR Hv HB HI HN HD HE.
  - change (6 + Z.of_nat 0) with 6 in *.
    assert (E : c_lt int32 uint64 64 (2 ^ 6) = false) by reflexivity.
    destruct HD as [k ->]. exists k.
    split. { destruct fuel; cbn [sqrt_loop2]; rewrite E; rewrite u64_shr by lia; f_equal;
             replace (2 * (k * (2 * 2 ^ 6))) with (k * 2 ^ 8) by (change (2 ^ 8) with 256; change (2 ^ 6) with 64; lia);
             apply Z.div_mul; discriminate. }
    change (2 ^ 16) with 65536. change (2 ^ 30) with 1073741824 in *. change (2 ^ 6) with 64 in *. nia.
  - destruct fuel as [|fuel]; [lia|].
    set (b := 2 ^ (6 + Z.of_nat (S n))) in *.
    set (b' := 2 ^ (6 + Z.of_nat n)).
    assert (EB : b = 2 * b').
    { unfold b, b'. replace (6 + Z.of_nat (S n)) with (6 + Z.of_nat n + 1) by lia. apply half_pow; lia. }
    assert (PB : 64 <= b'). { unfold b'. change 64 with (2 ^ 6). apply Z.pow_le_mono_r; lia. }
    cbn [sqrt_loop2]. fold b.
    assert (NE : c_lt int32 uint64 64 b = true).
    { rewrite (g_lt int32 uint64 uint64 64 b u64_ok eq_refl).
      - apply Z.ltb_lt. lia.
      - reflexivity.
      - apply u64_r. change (2 ^ 64) with 18446744073709551616. change (2 ^ 40) with 1099511627776 in HB. lia. }
    rewrite NE.
    destruct (trial_ok (2 ^ 30 * V) R b v HR ltac:(lia) Hv ltac:(lia) HI HN) as (R1 & v1 & ET & E1 & V1 & N1 & B1 & LE1 & C).
    rewrite ET. cbv beta iota delta [bind].
    assert (R1B : 0 <= R1 <= R + b) by (clear - C HR EB PB; lia).
    assert (D1 : (b | R1)).
    { destruct HD as [k Ek]. destruct C as [(-> & _)|(-> & _)].
      - exists (2 * k). clear - Ek; lia.
      - exists (2 * k + 1). clear - Ek; lia. }
    change (2 ^ 40) with 1099511627776 in HB.
    assert (V1B : 0 <= v1 < 18446744073709551616) by (clear - B1 R1B HB V1 EB PB; lia).
    assert (LA : c_and uint64 uint32 v1 2147483648 = Z.land v1 2147483648).
    { unfold c_and. change (uac uint64 uint32) with uint64. cbv zeta. rewrite (wrap_id uint64 v1); [reflexivity|reflexivity|].
      apply u64_r. exact V1B. }
    rewrite LA. destruct (Z.eqb_spec (Z.land v1 2147483648) 0) as [Z0|NZ]; cbn [negb].
    + rewrite u64_shl by (change (2 ^ 63) with 9223372036854775808; clear - B1 R1B HB V1 EB PB; lia).
      rewrite u64_shr by lia. change (2 ^ 1) with 2. replace (b / 2) with b' by (rewrite EB, Z.mul_comm, Z.div_mul; lia).
      apply (IH fuel R1 (2 * v1)); try (fold b'); try (clear - Hf Hn V1 R1B; lia).
      * change (2 ^ 40) with 1099511627776. clear - HB R1B EB PB C HD; lia.
      * rewrite EB in E1. clear - E1; lia.
      * rewrite <- EB. exact N1.
      * rewrite <- EB. exact D1.
      * left. exists v1. clear; lia.
    + pose proof (land_bit31 v1 V1 NZ) as BIG.
      destruct HE as [[h Eh]|[SM _]]; [|exfalso; clear - SM BIG LE1; lia].
      assert (EV1 : exists w, v1 = 2 * w).
      { destruct C as [(_ & -> & _)|(_ & -> & _)]; [exists h; clear - Eh; lia|exists (h - R - b'); clear - Eh EB; lia]. }
      destruct EV1 as [w Ew]. destruct D1 as [k Ek].
      rewrite !u64_shr by lia. change (2 ^ 1) with 2.
      replace (2 * R1 / 2) with R1 by (rewrite Z.mul_comm, Z.div_mul; lia).
      replace (b / 2) with b' by (rewrite EB, Z.mul_comm, Z.div_mul; lia).
      replace (v1 / 2) with w by (rewrite Ew, Z.mul_comm, Z.div_mul; lia).
      replace R1 with (2 * (k * b')) by (clear - Ek EB; lia).
      assert (ER : R1 = 2 * (k * b')) by (clear - Ek EB; lia).
      assert (Pn : 5 + Z.of_nat (S n) = 6 + Z.of_nat n) by lia.
      destruct (loop3_ok (2 ^ 28 * V) (S n) 64 (k * b') w) as (r & Er & Pr & Br).
      * lia.
      * clear - ER R1B; lia.
      * clear - Ew V1; lia.
      * rewrite Pn. fold b'. change (2 ^ 40) with 1099511627776. clear - ER R1B HB EB; lia.
      * rewrite Pn. fold b'. change (2 ^ 28) with 268435456. change (2 ^ 30) with 1073741824 in E1.
        rewrite Ew, EB, ER in E1. clear - E1; nia.
      * rewrite Pn. fold b'. change (2 ^ 28) with 268435456. change (2 ^ 30) with 1073741824 in N1.
        rewrite EB, ER in N1. assert (0 <= k * b') by (clear - ER R1B; lia). clear - N1 H PB; nia.
      * right. split; [lia|]. rewrite Pn. fold b'. split; [exists k; reflexivity|].
        change (2 ^ 28) with 268435456. change (2 ^ 30) with 1073741824 in N1.
        rewrite EB, ER in N1. clear - N1; nia.
      * rewrite Pn in Er. fold b' in Er. rewrite Er.
        exists r. rewrite u64_shr by lia. split; [f_equal; replace (2 * (r * 2 ^ 6)) with (r * 2 ^ 7) by (change (2 ^ 7) with 128; change (2 ^ 6) with 64; lia); apply Z.div_mul; discriminate|].
        split; [auto|]. change (2 ^ 28) with 268435456 in Br. change (2 ^ 6) with 64 in Br. change (2 ^ 16) with 65536. clear - Br; nia.
Qed.

(** the bit-hack root of a non-negative 16.16 raw value *)
Theorem sqrt_core V : 0 <= V < 2 ^ 31 ->
  exists r, (if c_lt uint64 int32 V 0x40000200 then
       let* q := sqrt_loop1 64 0 0x40000000 V in
       c_shr uint64 q 8
     else sqrt_loop2 64 0 0x40000000 V) = Ok r /\ 0 <= r /\ r * r <= 2 ^ 16 * V < (r + 1) * (r + 1).
Proof.
  intros HV. change 0x40000000 with (2 ^ (6 + Z.of_nat 24)).
  change (sqrt_loop1 64 0) with (sqrt_loop1 64 (2 * 0)). change (sqrt_loop2 64 0) with (sqrt_loop2 64 (2 * 0)).
  destruct (c_lt uint64 int32 V 1073742336).
  - destruct (loop1_ok (2 ^ 30 * V) 24 64 0 V) as (r & Er & Pr & Br); try lia.
    + exists 0. lia.
    + rewrite Er. cbn [bind]. rewrite u64_shr by lia. exists r.
      split; [f_equal; replace (2 * (r * 2 ^ 7)) with (r * 2 ^ 8) by (change (2 ^ 8) with 256; change (2 ^ 7) with 128; lia); apply Z.div_mul; discriminate|].
      split; [auto|]. change (2 ^ 30) with 1073741824 in Br. change (2 ^ 7) with 128 in Br. change (2 ^ 16) with 65536. clear - Br; nia.
  - destruct (loop2_ok V HV 24 64 0 V) as (r & Er & Pr & Br); try lia.
    + exists 0. lia.
    + exists r. split; [exact Er|]. split; [auto|exact Br].
Qed.

(** sqrt over int32_t with 16 fraction bits *)
Definition int32_16 (c : cfg) : Prop := ct c = int32 /\ cf c = 16.

Lemma root_bound r V : 0 <= r -> 0 <= V < 2 ^ 31 -> r * r <= 2 ^ 16 * V -> r < 2 ^ 24.
Proof. intros. change (2 ^ 24) with 16777216. change (2 ^ 31) with 2147483648 in *. change (2 ^ 16) with 65536 in *. nia. Qed.

Theorem sqrt32_eq c m : int32_16 c -> valid c m = true -> 0 <= m ->
  exists r, fx_sqrt c m = Ok r /\ 0 <= r < 2 ^ 24 /\ r * r <= 2 ^ 16 * m < (r + 1) * (r + 1).
Proof.
  intros [Ec Ef] V H0. apply in_range_iff in V. rewrite Ec in V. change (maxv int32) with (2 ^ 31 - 1) in V.
  unfold fx_sqrt. rewrite Ec. cbn [sgn bits int32 andb]. change (32 =? 32) with true. cbv iota.
  unfold sqrt_int32. rewrite Ef, Ec. change (16 >? 16) with false. cbv iota.
  assert (ES : c_shl int32 m (16 - 16) = Ok m).
  { unfold c_shl. change ((0 <=? 16 - 16) && (16 - 16 <? bits (promote int32))) with true. cbv iota.
    change (16 - 16) with 0. rewrite Z.shiftl_0_r. change (promote int32) with int32. rewrite wrap_id; auto.
    apply in_range_iff. change (maxv int32) with (2 ^ 31 - 1). lia. }
  rewrite ES. cbn [bind].
  assert (EW : wrap uint64 m = m).
  { apply wrap_id; [reflexivity|]. apply u64_r. change (2 ^ 64) with (2 ^ 31 * 2 ^ 33). change (2 ^ 33) with 8589934592. lia. }
  rewrite EW. cbv zeta.
  destruct (sqrt_core m ltac:(lia)) as (r & Er & Pr & Br). rewrite Er. cbn [bind].
  exists r. pose proof (root_bound r m Pr ltac:(lia) (proj1 Br)) as RB. unfold from_internal_value.
  rewrite wrap_id; [|reflexivity|apply in_range_iff; change (maxv int32) with (2 ^ 31 - 1); change (minv int32) with (- 2 ^ 31);
    change (2 ^ 31) with (128 * 2 ^ 24); change (2 ^ 24) with 16777216 in *; lia].
  repeat split; auto; apply Br.
Qed.
