(** Proofs about the benchmark loops (C162, C163). *)
From Coq Require Import ZArith Bool List Lia String.
From Verif Require Import Base BaseLemmas Fixed FixedLemmas TextIn Print Bench BenchLoop SpecBench BenchProofs.
Import ListNotations.
Open Scope Z_scope.

Section LOOPS.
Variable c : cfg.
Hypothesis W : wf c = true.
Lemma add_loop n : forall x y, sgn (ct c) = true -> 32 <= bits (ct c) -> valid c x = true -> valid c y = true ->
  bench_loop (fx_add_assign c) n x y = if valid c (x + Z.of_nat n * y) then Ok (x + Z.of_nat n * y) else UB.
Proof.
  induction n; intros x y S B X Y.
  - cbn [bench_loop]. change (Z.of_nat 0) with 0. rewrite Z.mul_0_l, Z.add_0_r, X. reflexivity.
  - cbn [bench_loop]. change (fx_add_assign c x y) with (fx_add c x y). rewrite fx_add_eq by auto. unfold ovf. rewrite S. replace (32 <=? bits (ct c)) with true by lia. cbn [andb].
    replace (x + Z.of_nat (Datatypes.S n) * y) with (x + y + Z.of_nat n * y) by lia.
    destruct (valid c (x + y)) eqn:V; cbn [bind].
    + apply IHn; auto.
    + destruct (valid c (x + y + Z.of_nat n * y)) eqn:V2; [exfalso|reflexivity]. revert V V2 X. clear. unfold valid, in_range.
      rewrite andb_false_iff, !andb_true_iff, !Z.leb_le, !Z.leb_gt. nia.
Qed.
Lemma sub_loop n : forall x y, sgn (ct c) = true -> 32 <= bits (ct c) -> valid c x = true -> valid c y = true ->
  bench_loop (fx_sub_assign c) n x y = if valid c (x - Z.of_nat n * y) then Ok (x - Z.of_nat n * y) else UB.
Proof.
  induction n; intros x y S B X Y.
  - cbn [bench_loop]. change (Z.of_nat 0) with 0. rewrite Z.mul_0_l, Z.sub_0_r, X. reflexivity.
  - cbn [bench_loop]. change (fx_sub_assign c x y) with (fx_sub c x y). rewrite fx_sub_eq by auto. unfold ovf. rewrite S. replace (32 <=? bits (ct c)) with true by lia. cbn [andb].
    replace (x - Z.of_nat (Datatypes.S n) * y) with (x - y - Z.of_nat n * y) by lia.
    destruct (valid c (x - y)) eqn:V; cbn [bind].
    + apply IHn; auto.
    + destruct (valid c (x - y - Z.of_nat n * y)) eqn:V2; [exfalso|reflexivity]. revert V V2 X. clear. unfold valid, in_range.
      rewrite andb_false_iff, !andb_true_iff, !Z.leb_le, !Z.leb_gt. nia.
Qed.
Hypothesis R : cr c = false.
Lemma mul_loop n : forall x y, valid c x = true -> valid c y = true -> exists r, bench_loop (fx_mul_assign c) n x y = Ok r /\ valid c r = true.
Proof.
  induction n; intros x y X Y; cbn [bench_loop]; [eauto|]. change (fx_mul_assign c x y) with (fx_mul c x y). rewrite fx_mul_eq by auto. cbn [bind].
  apply IHn; auto. apply valid_wrap_valid; auto.
Qed.
Lemma div_loop n : forall x y, valid c x = true -> valid c y = true -> y <> 0 -> exists r, bench_loop (fx_div_assign c) n x y = Ok r /\ valid c r = true.
Proof.
  induction n; intros x y X Y N; cbn [bench_loop]; [eauto|]. change (fx_div_assign c x y) with (fx_div c x y). rewrite fx_div_eq by auto. cbn [bind].
  apply IHn; auto. apply valid_wrap_valid; auto.
Qed.
Lemma div_loop_shrinks n : forall x y, valid c x = true -> valid c y = true -> 2 * 2 ^ cf c <= y ->
  exists r, bench_loop (fx_div_assign c) n x y = Ok r /\ valid c r = true /\ 2 ^ Z.of_nat n * Z.abs r <= Z.abs x.
Proof.
  assert (P : 0 < 2 ^ cf c) by (apply pow2_pos; unfold wf in W; rewrite !andb_true_iff in W; lia).
  induction n; intros x y X Y G; cbn [bench_loop].
  - exists x. split; [reflexivity|split; [auto|]]. change (2 ^ Z.of_nat 0) with 1. lia.
  - change (fx_div_assign c x y) with (fx_div c x y). rewrite fx_div_eq by (auto; lia). cbn [bind].
    set (q := Z.quot (x * 2 ^ cf c) y).
    assert (QA : 2 * Z.abs q <= Z.abs x).
    { unfold q. rewrite <- Z.quot_abs by lia. rewrite Z.abs_mul, (Z.abs_eq (2 ^ cf c)), (Z.abs_eq y) by lia.
      pose proof (Z.mul_quot_le (Z.abs x * 2 ^ cf c) y ltac:(nia) ltac:(lia)). set (k := Z.quot (Z.abs x * 2 ^ cf c) y) in *.
      assert (0 <= k) by (apply Z.quot_pos; nia). nia. }
    assert (QS : 0 <= q * x).
    { unfold q. destruct (Z.le_gt_cases 0 x).
      - apply Z.mul_nonneg_nonneg; auto. apply Z.quot_pos; nia.
      - pose proof (Z.quot_pos (- x * 2 ^ cf c) y ltac:(nia) ltac:(lia)) as QQ. rewrite Z.mul_opp_l, Z.quot_opp_l in QQ by lia. nia. }
    assert (V : valid c q = true).
    { clear - X QA QS W. assert (minv (ct c) <= 0 <= maxv (ct c)).
      { assert (0 < 2 ^ bits (ct c) /\ 0 < 2 ^ (bits (ct c) - 1)) by (split; apply pow2_pos; unfold wf in W; rewrite !andb_true_iff in W; lia). unfold minv, maxv. destruct (sgn (ct c)); lia. }
      revert X. unfold valid, in_range. rewrite !andb_true_iff, !Z.leb_le. nia. }
    rewrite valid_wrap by auto. destruct (IHn q y V Y G) as (r & E & VR & B). exists r. split; [auto|split; [auto|]].
    rewrite Nat2Z.inj_succ, Z.pow_succ_r by lia. lia.
Qed.
Lemma div_loop_zero n x y : valid c x = true -> valid c y = true -> 2 * 2 ^ cf c <= y -> bits (ct c) <= Z.of_nat n ->
  bench_loop (fx_div_assign c) n x y = Ok 0.
Proof.
  intros X Y G N. destruct (div_loop_shrinks n x y X Y G) as (r & E & V & B). rewrite E. f_equal.
  assert (BB : 8 <= bits (ct c)) by (unfold wf in W; rewrite !andb_true_iff in W; lia).
  assert (XB : Z.abs x < 2 ^ bits (ct c)).
  { assert (2 ^ bits (ct c) = 2 * 2 ^ (bits (ct c) - 1)) by (rewrite <- Z.pow_succ_r by lia; f_equal; lia).
    assert (0 < 2 ^ (bits (ct c) - 1)) by (apply pow2_pos; lia).
    revert X. unfold valid, in_range, minv, maxv. destruct (sgn (ct c)); rewrite andb_true_iff, !Z.leb_le; lia. }
  assert (2 ^ bits (ct c) <= 2 ^ Z.of_nat n) by (apply Z.pow_le_mono_r; lia). nia.
Qed.
End LOOPS.

Lemma bench_lits : lit F32 "4.95" = Ok 324403 /\ lit F32 "1145.14" = Ok 75047895 /\ lit F64 "4.95" = Ok 21260088115 /\ lit F64 "1145.14" = Ok 4918338849341.
Proof. repeat split; vm_compute; reflexivity. Qed.
Ltac lits := unfold bench; destruct bench_lits as (L1 & L2 & L3 & L4); try rewrite L1; try rewrite L2; try rewrite L3; try rewrite L4; cbn [bind].
Lemma add_benches n :
  f32_add n = (if Z.of_nat n <=? 28 then Ok (324403 + Z.of_nat n * 75047895) else UB) /\
  f32_minus n = (if Z.of_nat n <=? 28 then Ok (324403 - Z.of_nat n * 75047895) else UB) /\
  f64_add n = (if Z.of_nat n <=? 433834849 then Ok (4918338849341 + Z.of_nat n * 21260088115) else UB) /\
  f64_minus n = (if Z.of_nat n <=? 433835311 then Ok (4918338849341 - Z.of_nat n * 21260088115) else UB).
Proof.
  unfold f32_add, f32_minus, f64_add, f64_minus. lits. rewrite !add_loop, !sub_loop by (try reflexivity; cbn; lia).
  assert (V32 : forall k, valid F32 k = (-2147483648 <=? k) && (k <=? 2147483647)) by reflexivity.
  assert (V64 : forall k, valid F64 k = (-9223372036854775808 <=? k) && (k <=? 9223372036854775807)) by reflexivity.
  rewrite !V32, !V64. pose proof (Zle_0_nat n) as N. set (k := Z.of_nat n) in *. clearbody k. clear - N. repeat split.
  - replace ((-2147483648 <=? 324403 + k * 75047895) && (324403 + k * 75047895 <=? 2147483647)) with (k <=? 28) by lia. reflexivity.
  - replace ((-2147483648 <=? 324403 - k * 75047895) && (324403 - k * 75047895 <=? 2147483647)) with (k <=? 28) by lia. reflexivity.
  - replace ((-9223372036854775808 <=? 4918338849341 + k * 21260088115) && (4918338849341 + k * 21260088115 <=? 9223372036854775807)) with (k <=? 433834849) by lia. reflexivity.
  - replace ((-9223372036854775808 <=? 4918338849341 - k * 21260088115) && (4918338849341 - k * 21260088115 <=? 9223372036854775807)) with (k <=? 433835311) by lia. reflexivity.
Qed.
Lemma mul_div_benches n : (exists r, f32_multiple n = Ok r) /\ (exists r, f64_multiple n = Ok r) /\ (exists r, f32_divide n = Ok r) /\ (exists r, f64_divide n = Ok r).
Proof.
  unfold f32_multiple, f64_multiple, f32_divide, f64_divide. lits.
  pose proof (mul_loop F32 eq_refl eq_refl n 324403 75047895 eq_refl eq_refl) as (r1 & E1 & _).
  pose proof (mul_loop F64 eq_refl eq_refl n 4918338849341 21260088115 eq_refl eq_refl) as (r2 & E2 & _).
  pose proof (div_loop F32 eq_refl eq_refl n 324403 75047895 eq_refl eq_refl ltac:(lia)) as (r3 & E3 & _).
  pose proof (div_loop F64 eq_refl eq_refl n 4918338849341 21260088115 eq_refl eq_refl ltac:(lia)) as (r4 & E4 & _). eauto 10.
Qed.
Lemma loop_app op a b x y : bench_loop op (a + b) x y = let* z := bench_loop op a x y in bench_loop op b z y.
Proof. revert x. induction a; intros x; cbn [bench_loop Nat.add]; [reflexivity|]. destruct (op x y); cbn [bind]; auto. Qed.
Lemma div_zero c n y : wf c = true -> cr c = false -> valid c y = true -> y <> 0 -> bench_loop (fx_div_assign c) n 0 y = Ok 0.
Proof.
  intros W R Y N. assert (V0 : valid c 0 = true).
  { assert (0 < 2 ^ bits (ct c) /\ 0 < 2 ^ (bits (ct c) - 1)) by (split; apply pow2_pos; unfold wf in W; rewrite !andb_true_iff in W; lia). unfold valid, in_range, minv, maxv. destruct (sgn (ct c)); lia. }
  induction n; cbn [bench_loop]; [reflexivity|]. change (fx_div_assign c 0 y) with (fx_div c 0 y). rewrite fx_div_eq by auto. cbn [bind].
  rewrite Z.mul_0_l, Z.quot_0_l, valid_wrap by auto. exact IHn.
Qed.
Lemma div_benches_zero n : f32_divide (2 + n) = Ok 0 /\ f64_divide (19 + n) = Ok 0.
Proof.
  unfold f32_divide, f64_divide. lits. rewrite (loop_app _ 2 n), (loop_app _ 19 n).
  replace (bench_loop (fx_div_assign F32) 2 324403 75047895) with (Ok 0) by (vm_compute; reflexivity).
  replace (bench_loop (fx_div_assign F64) 19 4918338849341 21260088115) with (Ok 0) by (vm_compute; reflexivity). cbn [bind].
  split; apply div_zero; try reflexivity; lia.
Qed.
Lemma divide_file_missing fs n : fs (chars "input") = None -> f32_divide_file fs cache0 (S n) = UB.
Proof. intros H. unfold f32_divide_file. rewrite !H. vm_compute. reflexivity. Qed.
(** benchmark/input.in as shipped; 10 ends a line *)
Definition input_in : str := List.concat (map (fun l => chars l ++ [10]) ["test_key=114.514"; "test_create=1145.14"; "test_divide_1=114.514"; "test_divide_2=4.95";
  "test_multiple_1=4.95"; "test_multiple_2=5.14"; "test_sin=11.4514"]%string) ++ chars "test_atan=0.5".
Lemma divide_file_shipped fs n : fs (chars "input") = Some input_in -> exists r, f32_divide_file fs cache0 n = Ok r.
Proof.
  intros H. unfold f32_divide_file. rewrite !H.
  destruct (get_input (Some input_in) cache0 (chars "input") (chars "test_divide_1")) as [v1 st] eqn:E1.
  destruct (get_input (Some input_in) st (chars "input") (chars "test_divide_2")) as [v2 st2] eqn:E2.
  assert (A1 : v1 = chars "114.514") by (change v1 with (fst (v1, st)); rewrite <- E1; vm_compute; reflexivity).
  assert (A2 : v2 = chars "4.95").
  { change v2 with (fst (v2, st2)). rewrite <- E2. replace st with (snd (get_input (Some input_in) cache0 (chars "input") (chars "test_divide_1"))) by (rewrite E1; reflexivity).
    vm_compute. reflexivity. }
  rewrite A1, A2. replace (literal F32 (chars "114.514") 0) with (Ok 7504789) by (vm_compute; reflexivity). replace (literal F32 (chars "4.95") 0) with (Ok 324403) by (vm_compute; reflexivity).
  cbn [bind]. destruct (div_loop F32 eq_refl eq_refl n 7504789 324403 eq_refl eq_refl ltac:(lia)) as (r & E & _). eauto.
Qed.
