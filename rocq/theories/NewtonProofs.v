(** The Newton square root of fixed64 (C35): contraction of the integer Newton step, absence of
    overflow, and the error of the result. *)
From Coq Require Import ZArith Bool List Lia ZifyBool QArith Qabs.
From Verif Require Import Base Fixed Math Spec BaseLemmas SpecLemmas FixedLemmas CLemmas MathProofs.
Open Scope Z_scope.

(** ** the integer Newton step *)
Section STEP.
  Variables (N S : Z).
  Hypotheses (HS : 0 < S) (LS : S * S <= N) (US : N < (S + 1) * (S + 1)).

  Definition nstep (x : Z) : Z := (x + N / x) / 2.

  Lemma nstep_lower x : 0 < x -> S <= nstep x.
  Proof.
    intros Hx. unfold nstep. apply Z.div_le_lower_bound; [lia|].
    destruct (Z.le_gt_cases (2 * S) (x + N / x)) as [L|L]; [exact L|exfalso].
    pose proof (Z.div_mod N x ltac:(lia)). pose proof (Z.mod_pos_bound N x Hx).
    assert (N < (2 * S - x) * x).
    { apply Z.lt_le_trans with ((N / x + 1) * x); [clear - H H0; lia|]. apply Z.mul_le_mono_nonneg_r; [clear - Hx; lia|]. clear - L; lia. }
    assert ((2 * S - x) * x = S * S - (S - x) * (S - x)) by ring. pose proof (Z.square_nonneg (S - x)). clear - LS H1 H2 H3. lia.
  Qed.

  Lemma nstep_upper x : 0 < x -> 2 * x * (nstep x - S) <= (x - S) * (x - S) + 2 * S.
  Proof.
    intros Hx. unfold nstep.
    pose proof (Z.mul_div_le (x + N / x) 2 ltac:(lia)). pose proof (Z.mul_div_le N x Hx).
    set (y := (x + N / x) / 2) in *. set (z := N / x) in *.
    assert (2 * x * y <= x * x + N) by nia. nia.
  Qed.

  Lemma nstep_contract x : S <= x -> 2 * S * (nstep x - S) <= (x - S) * (x - S) + 2 * S.
  Proof.
    intros Hx. pose proof (nstep_lower x ltac:(lia)). pose proof (nstep_upper x ltac:(lia)). nia.
  Qed.

  (** error bounds: a*e <= S + b becomes 2a^2*e' <= S + ... *)
  Lemma contract_bound a b k e e' : 0 < a -> 0 <= e -> a * e <= S + b -> b * b <= k * S ->
    2 * S * e' <= e * e + 2 * S -> 2 * (a * a) * e' <= S + 2 * b + k + 2 * (a * a).
  Proof using HS.
    clear LS US. intros Ha He Hae Hk H.
    assert (Hae2 : (a * e) * (a * e) <= (S + b) * (S + b)).
    { assert (0 <= a * e) by nia. apply Z.mul_le_mono_nonneg; lia. }
    assert (H2 : S * (2 * (a * a) * e') <= S * (S + 2 * b + k + 2 * (a * a))).
    { replace (S * (2 * (a * a) * e')) with ((a * a) * (2 * S * e')) by ring.
      apply Z.le_trans with ((a * a) * (e * e + 2 * S)); [apply Z.mul_le_mono_nonneg_l; [nia|exact H]|].
      replace ((a * a) * (e * e + 2 * S)) with ((a * e) * (a * e) + 2 * (a * a) * S) by ring.
      assert ((S + b) * (S + b) <= S * S + 2 * b * S + k * S) by (clear - Hk; nia).
      clear - Hae2 H0. nia. }
    apply Z.mul_le_mono_pos_l with (p := S); auto.
  Qed.

  (** first step from a start value within a factor of the root *)
  Lemma first_bound x0 : 0 < x0 -> 8 * (x0 * x0) <= 9 * N -> N <= 3 * (x0 * x0) -> 1000 <= S ->
    0 <= nstep x0 - S /\ 5 * (nstep x0 - S) <= S + 9.
  Proof.
    intros Hx H8 H3 HS1.
    pose proof (nstep_lower x0 Hx) as L. split; [lia|].
    pose proof (nstep_upper x0 Hx) as U.
    set (e := nstep x0 - S) in *. clearbody e.
    assert (A : 1000 * S <= 1863 * x0) by (clear - LS H3 Hx HS; nia).
    assert (B : 537 * x0 <= 1000 * S) by (clear - US H8 Hx HS1; nia).
    assert (C : 0 <= (1000 * S - 537 * x0) * (1863 * x0 - 1000 * S)) by (apply Z.mul_nonneg_nonneg; lia).
    assert (D : 5 * ((x0 - S) * (x0 - S)) <= 2 * (x0 * S)) by (clear - C Hx; nia).
    assert (E : x0 * (1000 * (5 * e)) <= x0 * (1000 * S + 5 * 1863)) by (clear - U D A; nia).
    apply Z.mul_le_mono_pos_l in E; auto. lia.
  Qed.
End STEP.

(** ** fixed64 primitives *)
Lemma i64_r x : - 2 ^ 63 <= x < 2 ^ 63 -> valid F64 x = true.
Proof. intros. apply in_range_iff. change (minv (ct F64)) with (- 2 ^ 63). change (maxv (ct F64)) with (2 ^ 63 - 1). lia. Qed.
Lemma F64_wf : wf F64 = true. Proof. reflexivity. Qed.

Lemma f64_half x : 0 <= x < 2 ^ 63 -> fx_div_int F64 int32 x 2 = Ok (x / 2).
Proof.
  intros H. unfold fx_div_int, fx_div_assign_int. change (ct F64) with int64.
  assert (R : in_range int64 x = true) by (apply (i64_r x); lia).
  assert (Q : in_range int64 (Z.quot x 2) = true).
  { apply (i64_r (Z.quot x 2)). rewrite Z.quot_div_nonneg by lia.
    pose proof (Z.div_pos x 2 ltac:(lia) ltac:(lia)). pose proof (Z.div_le_upper_bound x 2 x ltac:(lia) ltac:(lia)). lia. }
  rewrite (g_div int64 int32 int64 x 2 eq_refl eq_refl R eq_refl ltac:(lia) Q). cbn [bind].
  rewrite wrap_id by (auto; reflexivity). rewrite Z.quot_div_nonneg by lia. reflexivity.
Qed.

Lemma f64_lt x y : valid F64 x = true -> valid F64 y = true -> fx_lt F64 x y = (x <? y).
Proof.
  intros Vx Vy. unfold fx_lt, fx_cmp. rewrite uac_refl. rewrite !wrap_p by auto.
  unfold Z.ltb. destruct (x ?= y); reflexivity.
Qed.

Definition eps64 : Z := 327680.
Lemma f64_eps : fx_epsilon F64 = Ok eps64. Proof. reflexivity. Qed.

Definition far (m x : Z) : Z := Z.abs (m - x * x / 2 ^ 32).

Lemma newton_step k m x : 0 < m < 2 ^ 63 -> 0 < x < 2 ^ 50 -> m * 2 ^ 32 / x < 2 ^ 62 ->
  let x1 := nstep (m * 2 ^ 32) x in x1 * x1 < 2 ^ 95 ->
  sqrt_newton (S k) F64 m eps64 x =
    if far m x1 <? eps64 then Ok x1 else sqrt_newton k F64 m eps64 x1.
Proof.
  intros Hm Hx Hq x1 H1. set (N := m * 2 ^ 32) in *.
  assert (P32 : 0 < 2 ^ 32) by reflexivity. assert (P50 : 2 ^ 50 < 2 ^ 62) by reflexivity.
  assert (E63 : 2 ^ 63 = 2 * 2 ^ 62) by reflexivity.
  assert (HN : 0 <= N) by (unfold N; lia).
  cbn [sqrt_newton].
  assert (Vm : valid F64 m = true) by (apply i64_r; lia).
  assert (Vx : valid F64 x = true) by (apply i64_r; lia).
  assert (Q0 : 0 <= N / x) by (apply Z.div_pos; lia).
  assert (D : fx_div F64 m x = Ok (N / x)).
  { rewrite fx_div_eq by (auto; lia). change (cf F64) with 32. fold N. rewrite Z.quot_div_nonneg by lia.
    rewrite valid_wrap; auto. apply i64_r. lia. }
  rewrite D. cbn [bind].
  assert (VQ : valid F64 (N / x) = true) by (apply i64_r; lia).
  assert (VS : valid F64 (x + N / x) = true) by (apply i64_r; lia).
  rewrite fx_add_eq by auto. rewrite ovf_valid by auto. cbn [bind].
  rewrite f64_half by lia. cbn [bind]. fold (nstep N x). fold x1.
  assert (X1 : 0 <= x1 < 2 ^ 63).
  { unfold x1, nstep. pose proof (Z.div_pos (x + N / x) 2 ltac:(lia) ltac:(lia)).
    pose proof (Z.div_le_upper_bound (x + N / x) 2 (x + N / x) ltac:(lia) ltac:(lia)). lia. }
  assert (V1 : valid F64 x1 = true) by (apply i64_r; lia).
  assert (S0 : 0 <= x1 * x1 / 2 ^ 32 < 2 ^ 63).
  { split; [apply Z.div_pos; nia|]. apply Z.div_lt_upper_bound; [reflexivity|].
    change (2 ^ 32 * 2 ^ 63) with (2 ^ 95). exact H1. }
  rewrite fx_mul_eq by auto. change (cf F64) with 32.
  assert (VP : valid F64 (x1 * x1 / 2 ^ 32) = true) by (apply i64_r; lia).
  rewrite valid_wrap by auto. cbn [bind].
  assert (VD : valid F64 (m - x1 * x1 / 2 ^ 32) = true) by (apply i64_r; lia).
  rewrite fx_sub_eq by auto. rewrite ovf_valid by auto. cbn [bind].
  assert (VA : valid F64 (Z.abs (m - x1 * x1 / 2 ^ 32)) = true) by (apply i64_r; lia).
  rewrite abs_ok by auto. cbn [bind]. rewrite f64_lt by (auto; reflexivity). reflexivity.
Qed.

(** ** start value *)
Lemma find_msb_loop_ok : forall (n fuel : nat) v k, (n <= fuel)%nat -> 2 ^ Z.of_nat n <= v < 2 ^ (Z.of_nat n + 1) ->
  (n <= 62)%nat -> find_msb_loop fuel uint64 v k = Ok (k + Z.of_nat n).
Proof.
  induction n as [|n IH]; intros fuel v k Hf Hv Hn.
  - change (2 ^ Z.of_nat 0) with 1 in Hv. change (2 ^ (Z.of_nat 0 + 1)) with 2 in Hv. assert (v = 1) by lia. subst v.
    destruct fuel; cbn; f_equal; lia.
  - destruct fuel as [|fuel]; [lia|]. cbn [find_msb_loop].
    assert (P : 2 ^ Z.of_nat (S n) = 2 * 2 ^ Z.of_nat n).
    { rewrite Nat2Z.inj_succ, Z.pow_succ_r by lia. reflexivity. }
    assert (P' : 2 ^ (Z.of_nat (S n) + 1) = 2 * 2 ^ (Z.of_nat n + 1)).
    { replace (Z.of_nat (S n) + 1) with (Z.succ (Z.of_nat n + 1)) by lia. apply Z.pow_succ_r. lia. }
    pose proof (pow2_pos (Z.of_nat n) ltac:(lia)) as PP.
    assert (B : 2 ^ (Z.of_nat (S n) + 1) <= 2 ^ 63) by (apply Z.pow_le_mono_r; lia).
    unfold c_shr. change (bits (promote uint64)) with 64. change ((0 <=? 1) && (1 <? 64)) with true. cbv iota.
    cbn [bind]. rewrite shiftr_div by lia. change (2 ^ 1) with 2.
    assert (H2 : 2 ^ Z.of_nat n <= v / 2 < 2 ^ (Z.of_nat n + 1)).
    { split; [apply Z.div_le_lower_bound|apply Z.div_lt_upper_bound]; lia. }
    assert (WR : wrap uint64 (v / 2) = v / 2).
    { apply wrap_id; [reflexivity|]. apply in_range_iff. change (minv uint64) with 0. change (maxv uint64) with (2 * 2 ^ 63 - 1). lia. }
    rewrite WR. replace (v / 2 =? 0) with false by lia.
    rewrite (IH fuel (v / 2) (k + 1)) by (auto; lia). f_equal. lia.
Qed.

Lemma find_msb_ok m : 0 < m < 2 ^ 63 -> find_msb int64 m = Ok (Z.log2 m) /\ 0 <= Z.log2 m <= 62.
Proof.
  intros H. pose proof (Z.log2_spec m ltac:(lia)) as L. pose proof (Z.log2_nonneg m) as L0.
  assert (L1 : Z.log2 m < 63) by (apply Z.log2_lt_pow2; lia).
  split; [|lia].
  unfold find_msb. replace (m =? 0) with false by lia. cbn [sgn int64 bits].
  assert (R : in_range int64 m = true) by (apply (i64_r m); lia).
  rewrite (g_lt int64 int32 int64 m 0 eq_refl eq_refl R eq_refl). replace (m <? 0) with false by lia. cbn [bind].
  change {| bits := 64; sgn := false |} with uint64.
  assert (WR : wrap uint64 m = m).
  { apply wrap_id; [reflexivity|]. apply in_range_iff. change (minv uint64) with 0. change (maxv uint64) with (2 * 2 ^ 63 - 1). lia. }
  rewrite WR. replace (m =? 0) with false by lia.
  rewrite (find_msb_loop_ok (Z.to_nat (Z.log2 m)) 64 m 0); rewrite ?Z2Nat.id by lia; try lia; try reflexivity.
Qed.

Definition init_check (E : Z) : bool :=
  match get_sqrt_init_value F64 E with
  | Ok x0 => (8 * (x0 * x0) <=? 9 * 2 ^ (E + 32)) && ((2 ^ (E + 1) - 1) * 2 ^ 32 <=? 3 * (x0 * x0))
             && (65536 <=? x0) && (x0 <? 2 ^ 48)
             && (if E =? 62 then x0 =? 2 ^ 47 else true)
  | _ => false
  end.
Lemma init_ok E : 0 <= E <= 62 -> exists x0, get_sqrt_init_value F64 E = Ok x0 /\
  8 * (x0 * x0) <= 9 * 2 ^ (E + 32) /\ (2 ^ (E + 1) - 1) * 2 ^ 32 <= 3 * (x0 * x0) /\ 65536 <= x0 < 2 ^ 48 /\
  (E = 62 -> x0 = 2 ^ 47).
Proof.
  intros H.
  assert (A : forallb (fun n => init_check (Z.of_nat n)) (seq 0 63) = true) by (vm_compute; reflexivity).
  rewrite forallb_forall in A. specialize (A (Z.to_nat E)). rewrite Z2Nat.id in A by lia.
  assert (IN : In (Z.to_nat E) (seq 0 63)) by (apply in_seq; lia). specialize (A IN).
  unfold init_check in A. destruct (get_sqrt_init_value F64 E) as [x0| | |]; try discriminate.
  exists x0. split; [reflexivity|]. rewrite !andb_true_iff in A. destruct A as [[[[A1 A2] A3] A4] A5].
  repeat split; try (apply Z.leb_le; assumption); try (apply Z.ltb_lt; assumption).
  intros ->. apply Z.eqb_eq. exact A5.
Qed.

(** the largest argument plus one: from here on the first residual overflows *)
Definition sqrt64_limit : Z := 8432131806905434112.

Lemma init_quot m E x0 : 0 < m < 2 ^ (E + 1) -> 0 <= E <= 62 -> (2 ^ (E + 1) - 1) * 2 ^ 32 <= 3 * (x0 * x0) -> 0 < x0 < 2 ^ 48 ->
  m * 2 ^ 32 <= 3 * (x0 * x0) /\ m * 2 ^ 32 / x0 < 2 ^ 62.
Proof.
  intros Hm HE H3 Hx. assert (m * 2 ^ 32 <= 3 * (x0 * x0)).
  { apply Z.le_trans with (2 := H3). apply Z.mul_le_mono_nonneg_r; lia. }
  split; [auto|]. apply Z.div_lt_upper_bound; [lia|].
  change (2 ^ 62) with (16384 * 2 ^ 48). set (p := 2 ^ 48) in *. nia.
Qed.

Theorem sqrt64_main m : 0 < m < sqrt64_limit ->
  exists r, fx_sqrt F64 m = Ok r /\ 65536 <= r < 2 ^ 49 /\ far m r < eps64 /\
    m * 2 ^ 32 < (r + 1) * (r + 1) /\
    let S := Z.sqrt (m * 2 ^ 32) in S <= r /\ 5 * (r - S) <= S + 9.
Proof.
  intros Hm. unfold sqrt64_limit in Hm. set (N := m * 2 ^ 32).
  assert (Hm63 : 0 < m < 2 ^ 63) by (change (2 ^ 63) with 9223372036854775808; lia).
  pose proof (Z.sqrt_spec N ltac:(unfold N; lia)) as [LS US]. fold N in LS, US.
  set (S := Z.sqrt N) in *. change (Z.succ S) with (S + 1) in US.
  assert (HN : 2 ^ 32 <= N) by (unfold N; nia).
  assert (HNU : N < 8432131806905434112 * 2 ^ 32) by (unfold N; nia).
  assert (HS0 : 0 <= S) by apply Z.sqrt_nonneg.
  assert (HS : 65536 <= S). { change (2 ^ 32) with 4294967296 in HN. clear - US HN HS0. nia. }
  assert (HSU : S <= 190304309846677).
  { change (8432131806905434112 * 2 ^ 32) with 36215730346220226475722801152 in HNU. clear - LS HNU HS0. nia. }
  destruct (find_msb_ok m Hm63) as [EM LM].
  destruct (init_ok (Z.log2 m) LM) as (x0 & Ex0 & I8 & I3 & Ix & I62).
  pose proof (Z.log2_spec m ltac:(lia)) as [LG UG]. replace (Z.succ (Z.log2 m)) with (Z.log2 m + 1) in UG by lia.
  destruct (init_quot m (Z.log2 m) x0 ltac:(lia) LM I3 ltac:(lia)) as [I3' Q0]. fold N in I3', Q0.
  assert (I8' : 8 * (x0 * x0) <= 9 * N).
  { apply Z.le_trans with (1 := I8). unfold N. rewrite Z.pow_add_r by lia. nia. }
  assert (START : fx_sqrt F64 m = sqrt_newton 5 F64 m eps64 x0).
  { unfold fx_sqrt. change (sgn (ct F64) && (bits (ct F64) =? 32)) with false. cbv iota.
    unfold sqrt_generic. change (fx_of_int F64 0) with (Ok 0). cbn [bind].
    assert (V : valid F64 m = true) by (apply i64_r; lia).
    rewrite f64_lt by (auto; reflexivity). replace (m <? 0) with false by lia.
    unfold fx_eq. rewrite (g_eq (ct F64) (ct F64) int64 m 0 eq_refl eq_refl V eq_refl). replace (m =? 0) with false by lia.
    change (ct F64) with int64. rewrite EM. cbn [bind]. rewrite Ex0. cbn [bind]. rewrite f64_eps. reflexivity. }
  rewrite START.
  assert (HSp : 0 < S) by lia.
  set (x1 := nstep N x0). set (x2 := nstep N x1). set (x3 := nstep N x2). set (x4 := nstep N x3). set (x5 := nstep N x4).
  destruct (first_bound N S HSp LS US x0 ltac:(lia) I8' I3' ltac:(lia)) as [E1 B1]. fold x1 in E1, B1.
  (* errors of the successive iterates *)
  assert (E2 : 0 <= x2 - S) by (pose proof (nstep_lower N S LS x1 ltac:(lia)); unfold x2; lia).
  assert (B2 : 50 * (x2 - S) <= S + 69).
  { pose proof (contract_bound S HSp 5 9 1 (x1 - S) (x2 - S) ltac:(lia) ltac:(lia) ltac:(lia) ltac:(lia)
      (nstep_contract N S HSp LS US x1 ltac:(lia))). lia. }
  assert (E3 : 0 <= x3 - S) by (pose proof (nstep_lower N S LS x2 ltac:(lia)); unfold x3; lia).
  assert (B3 : 5000 * (x3 - S) <= S + 5139).
  { pose proof (contract_bound S HSp 50 69 1 (x2 - S) (x3 - S) ltac:(lia) ltac:(lia) ltac:(lia) ltac:(lia)
      (nstep_contract N S HSp LS US x2 ltac:(lia))). lia. }
  assert (E4 : 0 <= x4 - S) by (pose proof (nstep_lower N S LS x3 ltac:(lia)); unfold x4; lia).
  assert (B4 : 50000000 * (x4 - S) <= S + 50010681).
  { pose proof (contract_bound S HSp 5000 5139 403 (x3 - S) (x4 - S) ltac:(lia) ltac:(lia) ltac:(lia) ltac:(lia)
      (nstep_contract N S HSp LS US x3 ltac:(lia))). lia. }
  assert (E5 : 0 <= x5 - S) by (pose proof (nstep_lower N S LS x4 ltac:(lia)); unfold x5; lia).
  assert (B5 : x5 - S <= 1).
  { pose proof (contract_bound S HSp 50000000 50010681 38163500000 (x4 - S) (x5 - S) ltac:(lia) ltac:(lia) ltac:(lia) ltac:(lia)
      (nstep_contract N S HSp LS US x4 ltac:(lia))). lia. }
  (* squares stay below 2^95 *)
  assert (C95 : 2 ^ 95 = 39614081257132168796771975168) by reflexivity.
  assert (SQ1 : x1 * x1 < 2 ^ 95).
  { destruct (Z.eq_dec (Z.log2 m) 62) as [E62|N62].
    - specialize (I62 E62). unfold x1, nstep. rewrite I62.
      replace (N / 2 ^ 47) with (m / 2 ^ 15).
      2:{ unfold N. change (2 ^ 47) with (2 ^ 15 * 2 ^ 32). rewrite Z.div_mul_cancel_r by (change (2 ^ 15) with 32768; lia). reflexivity. }
      change (2 ^ 15) with 32768. change (2 ^ 47) with 140737488355328.
      assert (m / 32768 <= 257328241177533) by (apply Z.lt_succ_r; apply Z.div_lt_upper_bound; lia).
      assert (0 <= m / 32768) by (apply Z.div_pos; lia).
      assert (A : (140737488355328 + m / 32768) / 2 <= 199032864766430) by (apply Z.lt_succ_r; apply Z.div_lt_upper_bound; lia).
      assert (A0 : 0 <= (140737488355328 + m / 32768) / 2) by (apply Z.div_pos; lia).
      rewrite C95. clear - A A0. nia.
    - assert (m < 2 ^ 62). { apply Z.lt_le_trans with (1 := UG). apply Z.pow_le_mono_r; lia. }
      assert (S * S < 2 ^ 94). { apply Z.le_lt_trans with (1 := LS). unfold N. change (2 ^ 94) with (2 ^ 62 * 2 ^ 32). nia. }
      assert (S <= 2 ^ 47). { change (2 ^ 94) with (2 ^ 47 * 2 ^ 47) in H0. nia. }
      change (2 ^ 95) with (2 * (2 ^ 47 * 2 ^ 47)). change (2 ^ 47) with 140737488355328 in *. clear - B1 E1 H1 HS. nia. }
  assert (SQ : forall x, 0 <= x - S -> 50 * (x - S) <= S + 69 -> x * x < 2 ^ 95).
  { intros x Hx0 Hx1. rewrite C95. clear - Hx0 Hx1 HSU HS. nia. }
  assert (SQ2 : x2 * x2 < 2 ^ 95) by (apply SQ; lia).
  assert (SQ3 : x3 * x3 < 2 ^ 95) by (apply SQ; lia).
  assert (SQ4 : x4 * x4 < 2 ^ 95) by (apply SQ; lia).
  assert (SQ5 : x5 * x5 < 2 ^ 95) by (apply SQ; lia).
  assert (QX : forall x, S <= x -> N / x < 2 ^ 62).
  { intros x Hx. apply Z.div_lt_upper_bound; [lia|]. change (2 ^ 62) with 4611686018427387904. clear - US Hx HSU HS. nia. }
  assert (XB : forall x, 5 * (x - S) <= S + 9 -> x < 2 ^ 49) by (intros; change (2 ^ 49) with 562949953421312; lia).
  assert (P49 : 2 ^ 49 < 2 ^ 50) by reflexivity. assert (P48 : 2 ^ 48 < 2 ^ 50) by reflexivity.
  assert (DONE : forall x, 0 <= x - S -> 5 * (x - S) <= S + 9 -> far m x < eps64 ->
    65536 <= x < 2 ^ 49 /\ far m x < eps64 /\ N < (x + 1) * (x + 1) /\ (S <= x /\ 5 * (x - S) <= S + 9)).
  { intros x Hx0 Hx1 Hf. split; [split; [lia|apply XB; auto]|]. split; [auto|]. split; [|lia].
    apply Z.lt_le_trans with (1 := US). apply Z.mul_le_mono_nonneg; lia. }
  assert (FAR5 : far m x5 < eps64).
  { unfold far, eps64. assert (CX : x5 = S \/ x5 = S + 1) by lia.
    assert (D1 : N - (2 * S + 1) <= x5 * x5 <= N + (2 * S + 1)) by (clear - CX LS US HS; nia).
    assert (2 * S + 1 <= 100000 * 2 ^ 32) by (change (2 ^ 32) with 4294967296; lia).
    assert (m - 100000 <= x5 * x5 / 2 ^ 32) by (apply Z.div_le_lower_bound; [reflexivity|]; unfold N in D1; lia).
    assert (x5 * x5 / 2 ^ 32 <= m + 100000) by (apply Z.lt_succ_r; apply Z.div_lt_upper_bound; [reflexivity|]; unfold N in D1; lia).
    lia. }
  rewrite (newton_step 4 m x0) by (auto; lia). fold N x1.
  destruct (Z.ltb_spec (far m x1) eps64) as [F|_].
  { exists x1. split; [reflexivity|]. apply DONE; auto; lia. }
  rewrite (newton_step 3 m x1) by (first [exact SQ2 | fold N; apply QX; lia | pose proof (XB x1); lia]). fold N x2.
  destruct (Z.ltb_spec (far m x2) eps64) as [F|_].
  { exists x2. split; [reflexivity|]. apply DONE; auto; lia. }
  rewrite (newton_step 2 m x2) by (first [exact SQ3 | fold N; apply QX; lia | pose proof (XB x2); lia]). fold N x3.
  destruct (Z.ltb_spec (far m x3) eps64) as [F|_].
  { exists x3. split; [reflexivity|]. apply DONE; auto; lia. }
  rewrite (newton_step 1 m x3) by (first [exact SQ4 | fold N; apply QX; lia | pose proof (XB x3); lia]). fold N x4.
  destruct (Z.ltb_spec (far m x4) eps64) as [F|_].
  { exists x4. split; [reflexivity|]. apply DONE; auto; lia. }
  rewrite (newton_step 0 m x4) by (first [exact SQ5 | fold N; apply QX; lia | pose proof (XB x4); lia]). fold N x5.
  destruct (Z.ltb_spec (far m x5) eps64) as [F|_].
  - exists x5. split; [reflexivity|]. apply DONE; auto; lia.
  - exists x5. split; [reflexivity|]. apply DONE; auto; lia.
Qed.

(** from [sqrt64_limit] on, the first residual [fp - x*x] overflows *)
Theorem sqrt64_overflow m : sqrt64_limit <= m < 2 ^ 63 -> fx_sqrt F64 m = UB.
Proof.
  intros Hm. unfold sqrt64_limit in Hm.
  assert (Hm63 : 0 < m < 2 ^ 63) by lia.
  destruct (find_msb_ok m Hm63) as [EM LM].
  assert (E62 : Z.log2 m = 62).
  { apply Z.log2_unique; [lia|]. change (2 ^ Z.succ 62) with (2 ^ 63). change (2 ^ 62) with 4611686018427387904. lia. }
  assert (V : valid F64 m = true) by (apply i64_r; lia).
  unfold fx_sqrt. change (sgn (ct F64) && (bits (ct F64) =? 32)) with false. cbv iota.
  unfold sqrt_generic. change (fx_of_int F64 0) with (Ok 0). cbn [bind].
  rewrite f64_lt by (auto; reflexivity). replace (m <? 0) with false by lia.
  unfold fx_eq. rewrite (g_eq (ct F64) (ct F64) int64 m 0 eq_refl eq_refl V eq_refl). replace (m =? 0) with false by lia.
  change (ct F64) with int64. rewrite EM, E62. cbn [bind].
  change (get_sqrt_init_value F64 62) with (Ok (2 ^ 47)). cbn [bind]. rewrite f64_eps. cbn [bind sqrt_newton].
  rewrite fx_div_eq by (auto; reflexivity || discriminate). change (cf F64) with 32.
  assert (Q : Z.quot (m * 2 ^ 32) (2 ^ 47) = m / 32768).
  { rewrite Z.quot_div_nonneg by (try apply Z.mul_nonneg_nonneg; lia). change (2 ^ 47) with (32768 * 2 ^ 32).
    rewrite Z.div_mul_cancel_r by (try discriminate; lia). reflexivity. }
  rewrite Q. change (2 ^ 63) with 9223372036854775808 in *.
  assert (D1 : 257328241177534 <= m / 32768) by (apply Z.div_le_lower_bound; lia).
  assert (D2 : m / 32768 < 281474976710656) by (apply Z.div_lt_upper_bound; lia).
  set (d := m / 32768) in *. change (2 ^ 47) with 140737488355328.
  assert (VD : valid F64 d = true) by (apply i64_r; change (2 ^ 63) with 9223372036854775808; lia).
  rewrite valid_wrap by auto. cbn [bind].
  rewrite fx_add_eq by (auto; reflexivity). rewrite ovf_valid; [|reflexivity|apply i64_r; change (2 ^ 63) with 9223372036854775808; lia].
  cbn [bind]. rewrite f64_half by (change (2 ^ 63) with 9223372036854775808; lia). cbn [bind].
  set (x1 := (140737488355328 + d) / 2).
  assert (X1 : 199032864766431 <= x1 < 211106232532992).
  { unfold x1. split; [apply Z.div_le_lower_bound|apply Z.div_lt_upper_bound]; lia. }
  assert (V1 : valid F64 x1 = true) by (apply i64_r; change (2 ^ 63) with 9223372036854775808; lia).
  rewrite fx_mul_eq by auto. change (cf F64) with 32. change (2 ^ 32) with 4294967296.
  assert (Y1 : 9223372036854775808 <= x1 * x1 / 4294967296) by (apply Z.div_le_lower_bound; [lia|]; clear - X1; nia).
  assert (Y2 : x1 * x1 / 4294967296 < 10376293541461622784) by (apply Z.div_lt_upper_bound; [lia|]; clear - X1; nia).
  set (y := x1 * x1 / 4294967296) in *.
  assert (WY : wrap (ct F64) y = y - 18446744073709551616).
  { apply wrap_unique with (k := -1); [reflexivity| |change (2 ^ bits (ct F64)) with 18446744073709551616; lia].
    apply (i64_r (y - 18446744073709551616)). change (2 ^ 63) with 9223372036854775808. lia. }
  rewrite WY. cbn [bind].
  rewrite fx_sub_eq by (auto; apply i64_r; change (2 ^ 63) with 9223372036854775808; lia).
  unfold ovf. change (sgn (ct F64) && (32 <=? bits (ct F64))) with true. cbv iota.
  replace (valid F64 (m - (y - 18446744073709551616))) with false; [reflexivity|].
  symmetry. unfold valid, in_range. change (maxv (ct F64)) with 9223372036854775807.
  replace (m - (y - 18446744073709551616) <=? 9223372036854775807) with false by lia. apply andb_false_r.
Qed.

Lemma far_sq m r : far m r < eps64 -> Z.abs (r * r - m * 2 ^ 32) < eps64 * 2 ^ 32.
Proof.
  unfold far, eps64. intros H. change (2 ^ 32) with 4294967296 in *.
  pose proof (Z.div_mod (r * r) 4294967296 ltac:(lia)). pose proof (Z.mod_pos_bound (r * r) 4294967296 ltac:(lia)). lia.
Qed.

Theorem sqrt64_thm m : 0 < m < sqrt64_limit ->
  exists r, fx_sqrt F64 m = Ok r /\ (0 < qval 32 r)%Q /\
    (Qabs (qval 32 r * qval 32 r - qval 32 m) < 5 # 65536)%Q /\
    (qval 32 m < qval 32 (r + 1) * qval 32 (r + 1))%Q /\
    ((3 # 1000 <= qval 32 r)%Q -> ((qval 32 r - (3 # 1000)) * (qval 32 r - (3 # 1000)) <= qval 32 m)%Q).
Proof.
  intros Hm. destruct (sqrt64_main m Hm) as (r & E & R & F & U & L & D).
  exists r. split; [exact E|]. apply far_sq in F. unfold eps64 in F.
  set (S := Z.sqrt (m * 2 ^ 32)) in *.
  pose proof (Z.sqrt_spec (m * 2 ^ 32) ltac:(lia)) as [LS _]. fold S in LS.
  change (2 ^ 32) with 4294967296 in *.
  assert (PP : pow2p 32 = 4294967296%positive) by reflexivity.
  split; [unfold qval, Qlt; cbn; lia|].
  split.
  { apply Qabs_Qlt_condition. unfold qval. rewrite PP. unfold Qlt, Qminus, Qplus, Qopp, Qmult. cbn [Qnum Qden].
    split; cbn; lia. }
  split.
  { unfold qval. rewrite PP. unfold Qlt, Qmult. cbn [Qnum Qden]. cbn. lia. }
  intros H3.
  assert (D3 : r - S <= 12884901).
  { destruct (Z.le_gt_cases S 64424400) as [LE|GT]; [lia|].
    assert (r * r - S * S < 327680 * 4294967296 + 2 * S + 1).
    { pose proof (Z.sqrt_spec (m * 4294967296) ltac:(lia)) as [_ US]. fold S in US. change (Z.succ S) with (S + 1) in US. nia. }
    assert (S * (2 * (r - S)) < S * 25769802) by nia. apply Z.mul_lt_mono_pos_l in H0; lia. }
  assert (S0 : 0 <= S) by apply Z.sqrt_nonneg.
  assert (H3' : 3 * 4294967296 <= 1000 * r) by (unfold qval, Qle in H3; rewrite PP in H3; cbn in H3; lia).
  assert (K : (1000 * r - 3 * 4294967296) * (1000 * r - 3 * 4294967296) <= 1000000 * (m * 4294967296)).
  { apply Z.le_trans with ((1000 * S) * (1000 * S)); [|lia]. apply Z.mul_le_mono_nonneg; lia. }
  unfold qval. rewrite PP. unfold Qle, Qminus, Qplus, Qopp, Qmult. cbn [Qnum Qden].
  change (4294967296 * 1000)%positive with 4294967296000%positive.
  change (4294967296000 * 4294967296000)%positive with 18446744073709551616000000%positive.
  clear - K. lia.
Qed.
