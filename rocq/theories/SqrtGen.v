(** The Newton square root for every signed instantiation with a 64-bit store, 3 to 59 fraction bits and no rounding. *)
From Coq Require Import ZArith Bool List Lia ZifyBool.
From Verif Require Import Base Fixed Math Spec BaseLemmas FixedLemmas CLemmas MathProofs PowProofs NewtonProofs SinGen.
Open Scope Z_scope.

(** ** five integer Newton steps from the table's start value *)
Section ITER.
Variables N S x0 : Z.
Hypotheses (LS : S * S <= N) (US : N < (S + 1) * (S + 1)) (P0 : 0 < x0) (I4 : 4 * (x0 * x0) <= 9 * N) (I3 : N <= 3 * (x0 * x0)).
Let x1 := nstep N x0. Let x2 := nstep N x1. Let x3 := nstep N x2. Let x4 := nstep N x3. Let x5 := nstep N x4.
Definition near (x : Z) : Prop := S <= x /\ 5 * (x - S) <= S + 9.
Definition nears : Prop := near x1 /\ near x2 /\ near x3 /\ near x4 /\ near x5 /\ 5000000000000000 * (x5 - S) <= S + 6750000000000000.
Lemma first_bound' : 3 <= S -> near x1.
Proof.
  intros S3. assert (HS : 0 < S) by lia. pose proof (nstep_lower N S LS x0 P0) as L. split; [exact L|].
  pose proof (nstep_upper N S HS LS US x0 P0) as U. fold x1 in L, U |- *.
  set (e := x1 - S) in *. clearbody e.
  assert (A : 1000 * S <= 1863 * x0) by (clear - LS I3 P0 HS; nia).
  assert (B' : 2 * x0 < 3 * (S + 1)) by (clear - US I4 P0 S3; nia).
  assert (B : 537 * x0 <= 1000 * S) by (clear - B' S3; lia).
  assert (C : 0 <= (1000 * S - 537 * x0) * (1863 * x0 - 1000 * S)) by (apply Z.mul_nonneg_nonneg; lia).
  assert (D : 5 * ((x0 - S) * (x0 - S)) <= 2 * (x0 * S)) by (clear - C P0; nia).
  assert (E : x0 * (1000 * (5 * e)) <= x0 * (1000 * S + 5 * 1863)) by (clear - U D A; nia).
  apply Z.mul_le_mono_pos_l in E; auto. lia.
Qed.
Lemma iter_big : 3 <= S -> nears.
Proof.
  intros S3. assert (HS : 0 < S) by lia. destruct (first_bound' S3) as [E1 B1].
  assert (E2 : S <= x2) by (apply nstep_lower; auto; lia).
  assert (B2 : 50 * (x2 - S) <= S + 95).
  { pose proof (contract_bound S HS 5 9 27 (x1 - S) (x2 - S) ltac:(lia) ltac:(lia) ltac:(lia) ltac:(lia)
      (nstep_contract N S HS LS US x1 ltac:(lia))). lia. }
  assert (E3 : S <= x3) by (apply nstep_lower; auto; lia).
  assert (B3 : 5000 * (x3 - S) <= S + 8199).
  { pose proof (contract_bound S HS 50 95 3009 (x2 - S) (x3 - S) ltac:(lia) ltac:(lia) ltac:(lia) ltac:(lia)
      (nstep_contract N S HS LS US x2 ltac:(lia))). lia. }
  assert (E4 : S <= x4) by (apply nstep_lower; auto; lia).
  assert (B4 : 50000000 * (x4 - S) <= S + 72424265).
  { pose proof (contract_bound S HS 5000 8199 22407867 (x3 - S) (x4 - S) ltac:(lia) ltac:(lia) ltac:(lia) ltac:(lia)
      (nstep_contract N S HS LS US x3 ltac:(lia))). lia. }
  assert (E5 : S <= x5) by (apply nstep_lower; auto; lia).
  assert (B5 : 5000000000000000 * (x5 - S) <= S + 6750000000000000).
  { pose proof (contract_bound S HS 50000000 72424265 1749000000000000 (x4 - S) (x5 - S) ltac:(lia) ltac:(lia) ltac:(lia) ltac:(lia)
      (nstep_contract N S HS LS US x4 ltac:(lia))). lia. }
  unfold nears, near. repeat split; auto; lia.
Qed.
End ITER.
Definition iter2_check (N x0 : Z) : bool :=
  if (4 * (x0 * x0) <=? 9 * N) && (N <=? 3 * (x0 * x0)) then
    let x1 := nstep N x0 in let x2 := nstep N x1 in let x3 := nstep N x2 in let x4 := nstep N x3 in let x5 := nstep N x4 in
    (2 <=? x1) && (x1 <=? 4) && (2 <=? x2) && (x2 <=? 4) && (2 <=? x3) && (x3 <=? 4) && (2 <=? x4) && (x4 <=? 4) && (2 <=? x5) && (x5 <=? 3)
  else true.
Lemma iter2_all : forallb (fun n => forallb (fun k => iter2_check (Z.of_nat n) (Z.of_nat k)) (seq 1 5)) (seq 4 5) = true.
Proof. vm_compute. reflexivity. Qed.
Lemma iter_two N x0 : 4 <= N < 9 -> 0 < x0 -> 4 * (x0 * x0) <= 9 * N -> N <= 3 * (x0 * x0) -> nears N 2 x0.
Proof.
  intros HN P0 I4 I3. assert (X : x0 <= 4) by nia. pose proof iter2_all as A. rewrite forallb_forall in A.
  specialize (A (Z.to_nat N) ltac:(apply in_seq; lia)). rewrite forallb_forall in A.
  specialize (A (Z.to_nat x0) ltac:(apply in_seq; lia)). rewrite !Z2Nat.id in A by lia. unfold iter2_check in A.
  replace ((4 * (x0 * x0) <=? 9 * N) && (N <=? 3 * (x0 * x0))) with true in A by lia. cbv zeta in A.
  unfold nears, near. set (x1 := nstep N x0) in *. set (x2 := nstep N x1) in *. set (x3 := nstep N x2) in *.
  set (x4 := nstep N x3) in *. set (x5 := nstep N x4) in *. clearbody x1 x2 x3 x4 x5. lia.
Qed.
Lemma iter_all N S x0 : 2 <= S -> S * S <= N -> N < (S + 1) * (S + 1) -> 0 < x0 -> 4 * (x0 * x0) <= 9 * N -> N <= 3 * (x0 * x0) -> nears N S x0.
Proof.
  intros H2 LS US P0 I4 I3. destruct (Z.eq_dec S 2) as [->|NE]; [apply iter_two; auto; lia|apply iter_big; auto; lia].
Qed.

(** ** the start value and the stop criterion, for each number of fraction bits *)
Definition S64 (f : Z) : cfg := {| ct := int64; ci := int128; cf := f; cr := false |}.
Definition start_check (f E : Z) : bool :=
  match get_sqrt_init_value (S64 f) E with
  | Ok x0 => (0 <? x0) && (4 * (x0 * x0) <=? 9 * 2 ^ (E + f)) && ((2 ^ (E + 1) - 1) * 2 ^ f <=? 3 * (x0 * x0))
             && (if Z.odd f && (E =? 62) then x0 * x0 =? 2 ^ 63 * 2 ^ f else true)
  | _ => false
  end.
Lemma start_all : forallb (fun f => forallb (fun E => start_check (Z.of_nat f) (Z.of_nat E)) (seq 0 63)) (seq 3 57) = true.
Proof. vm_compute. reflexivity. Qed.
Definition eps_check (f : Z) : bool :=
  match fx_epsilon (S64 f) with Ok e => (0 <=? e) && (e * 65536 <=? 5 * 2 ^ f) | _ => false end.
Lemma eps_all : forallb (fun f => eps_check (Z.of_nat f)) (seq 3 57) = true. Proof. vm_compute. reflexivity. Qed.

Section GEN.
Variable c : cfg.
Hypothesis HS : sin_cfg c.
Hypothesis HB : bits (ct c) = 64.
Let f := cf c.
Let M := 2 ^ cf c.
Lemma q_t : ct c = int64. Proof using HS HB. clear M f. destruct (g_t c HS) as [E|E]; auto. rewrite E in HB. discriminate. Qed.
Lemma q_top : top c = 2 ^ 63. Proof using HB. clear M f. unfold top. rewrite HB. reflexivity. Qed.
Lemma q_start E : 0 <= E <= 62 -> exists x0, get_sqrt_init_value c E = Ok x0 /\ 0 < x0 /\ 4 * (x0 * x0) <= 9 * 2 ^ (E + f) /\
  (2 ^ (E + 1) - 1) * 2 ^ f <= 3 * (x0 * x0) /\ (Z.odd f = true -> E = 62 -> x0 * x0 = 2 ^ 63 * 2 ^ f).
Proof using HS HB.
  intros H. pose proof (g_f c HS) as F. pose proof start_all as A. rewrite forallb_forall in A.
  specialize (A (Z.to_nat f) ltac:(apply in_seq; unfold f; lia)). rewrite forallb_forall in A.
  specialize (A (Z.to_nat E) ltac:(apply in_seq; lia)). rewrite !Z2Nat.id in A by (unfold f; lia).
  assert (EQ : get_sqrt_init_value c E = get_sqrt_init_value (S64 f) E).
  { unfold get_sqrt_init_value, sqrt_init_value. cbn [ct cf S64]. rewrite q_t. reflexivity. }
  rewrite EQ. unfold start_check in A. destruct (get_sqrt_init_value (S64 f) E) as [x0| | |]; try discriminate.
  exists x0. split; [reflexivity|]. rewrite !andb_true_iff in A. destruct A as [[[A1 A2] A3] A4].
  apply Z.ltb_lt in A1. apply Z.leb_le in A2, A3. repeat split; auto.
  intros O ->. rewrite O in A4. apply Z.eqb_eq. exact A4.
Qed.
Lemma q_eps : exists e, fx_epsilon c = Ok e /\ 0 <= e /\ e * 65536 <= 5 * M.
Proof using HS HB.
  pose proof (g_f c HS) as F. pose proof eps_all as A. rewrite forallb_forall in A.
  specialize (A (Z.to_nat f) ltac:(apply in_seq; unfold f; lia)). rewrite !Z2Nat.id in A by (unfold f; lia).
  assert (EQ : fx_epsilon c = fx_epsilon (S64 f)).
  { unfold fx_epsilon, from_fixed_num_value. cbn [ct cf cr S64]. rewrite q_t, (g_nr c HS). reflexivity. }
  rewrite EQ. unfold eps_check in A. destruct (fx_epsilon (S64 f)) as [e| | |]; try discriminate.
  exists e. split; [reflexivity|]. fold f in A. unfold M. fold f. rewrite andb_true_iff in A. destruct A as [A1 A2]. apply Z.leb_le in A1, A2. auto.
Qed.
Definition farg (m x : Z) : Z := Z.abs (m - x * x / 2 ^ cf c).
Lemma q_step k m e x : 0 < m < 2 ^ 63 -> 0 <= e < 2 ^ 63 -> 0 < x ->
  let x1 := nstep (m * M) x in x1 < 2 ^ 62 -> x1 * x1 < 2 ^ 63 * M ->
  sqrt_newton (S k) c m e x = if farg m x1 <? e then Ok x1 else sqrt_newton k c m e x1.
Proof using HS HB.
  intros Hm He Hx x1 H1 H2. pose proof (g_M c HS) as HM. fold M in HM. set (N := m * M) in *.
  assert (E63 : 2 ^ 63 = 2 * 2 ^ 62) by reflexivity. assert (HN : 0 <= N) by (unfold N; lia).
  assert (Q0 : 0 <= N / x) by (apply Z.div_pos; lia).
  assert (SUM : x + N / x < 2 ^ 63).
  { pose proof (Z.div_mod (x + N / x) 2 ltac:(lia)) as D. pose proof (Z.mod_pos_bound (x + N / x) 2 ltac:(lia)).
    fold (nstep N x) in D. fold x1 in D. lia. }
  pose proof (g_valid c HS) as GV. rewrite q_top in GV.
  assert (V : forall z, 0 <= z < 2 ^ 63 -> valid c z = true) by (intros z Hz; apply GV; lia).
  cbn [sqrt_newton].
  assert (EQ : Z.quot (m * M) x = N / x) by (apply Z.quot_div_nonneg; lia).
  rewrite (g_div c HS); [|apply V; lia|apply V; lia|lia|fold M; rewrite EQ; apply V; lia]. cbn [bind]. fold M. rewrite EQ.
  rewrite (g_add c HS) by (apply V; lia). cbn [bind].
  rewrite (g_div_int c HS) by (try apply V; lia). cbn [bind].
  rewrite Z.quot_div_nonneg by lia. fold (nstep N x). fold x1.
  assert (X1 : 0 <= x1) by (apply Z.div_pos; lia).
  assert (S0 : 0 <= x1 * x1 / M < 2 ^ 63) by (split; [apply Z.div_pos; nia|apply Z.div_lt_upper_bound; lia]).
  rewrite (g_mul c HS) by (apply V; fold M; lia). cbn [bind]. fold M.
  rewrite (g_sub c HS) by (try (apply V; lia); apply GV; lia). cbn [bind].
  rewrite (g_abs c HS) by (try (apply V; lia); apply GV; lia). cbn [bind].
  rewrite (g_lt c HS) by (apply V; lia). reflexivity.
Qed.
(** from the square root of the limit, no iterate goes above it again *)
Lemma stay N S x0 x : S * S <= N -> N < (S + 1) * (S + 1) -> 0 < S -> N + 8 <= x0 * x0 -> S <= x <= x0 -> S < x0 /\ nstep N x <= x0 - 1.
Proof.
  clear. intros LS US S0 G Hx. assert (L : S < x0) by nia. split; [exact L|].
  assert (A : N < x * (2 * x0 - x)).
  { assert (B : (x0 - x) * (x0 - x) <= (x0 - S) * (x0 - S)) by (apply Z.mul_le_mono_nonneg; lia).
    assert (C : (x0 - S) * (x0 - S) < x0 * x0 - N).
    { destruct (Z.eq_dec x0 (S + 1)) as [->|NE]; [lia|]. set (k := x0 - S) in *. replace x0 with (S + k) in * by lia. assert (2 <= k) by lia. nia. }
    nia. }
  assert (Q : N / x <= 2 * x0 - x - 1) by (apply Z.lt_succ_r; apply Z.div_lt_upper_bound; lia).
  unfold nstep. apply Z.lt_succ_r. apply Z.div_lt_upper_bound; lia.
Qed.
Theorem sqrt_gen64 m : 0 < m -> m < 2 ^ 62 \/ m < 2 ^ 63 /\ Z.odd f = true ->
  exists r, fx_sqrt c m = Ok r /\ 0 < r < 2 ^ 62 /\ let S := Z.sqrt (m * M) in near S r /\
    (farg m r * 65536 < 5 * M \/ 5000000000000000 * (r - S) <= S + 6750000000000000).
Proof using HS HB.
  intros Hm0 Hm. assert (Hm63 : 0 < m < 2 ^ 63) by (change (2 ^ 63) with (2 * 2 ^ 62) in *; lia).
  pose proof (g_f c HS) as F. pose proof (g_M c HS) as HM. fold M in HM. set (N := m * M).
  pose proof (Z.sqrt_spec N ltac:(unfold N; lia)) as [LS US]. set (S := Z.sqrt N) in *. change (Z.succ S) with (S + 1) in US. cbv zeta.
  assert (HN : 8 <= N) by (unfold N; nia). assert (S0 : 0 <= S) by apply Z.sqrt_nonneg. assert (S2 : 2 <= S) by nia.
  assert (M59 : M <= 2 ^ 59) by (unfold M; apply Z.pow_le_mono_r; lia).
  assert (SU : S < 2 ^ 61).
  { apply Z.square_lt_simpl_nonneg; [lia|]. apply Z.le_lt_trans with (1 := LS). change (2 ^ 61 * 2 ^ 61) with (2 ^ 63 * 2 ^ 59). unfold N.
    apply Z.lt_le_trans with (2 ^ 63 * M); [apply Z.mul_lt_mono_pos_r; lia|apply Z.mul_le_mono_nonneg_l; lia]. }
  pose proof (Z.log2_spec m ltac:(lia)) as [LG UG]. replace (Z.succ (Z.log2 m)) with (Z.log2 m + 1) in UG by lia.
  destruct (find_msb_ok m Hm63) as [EM L1].
  destruct (q_start _ L1) as (x0 & E0 & P0 & I4 & I3 & I62). destruct q_eps as (e & EE & E1 & E2).
  assert (I4' : 4 * (x0 * x0) <= 9 * N).
  { apply Z.le_trans with (1 := I4). rewrite Z.pow_add_r by (unfold f; lia). unfold N, M. fold f. nia. }
  assert (I3' : N <= 3 * (x0 * x0)).
  { apply Z.le_trans with (2 := I3). unfold N, M. fold f. apply Z.mul_le_mono_nonneg_r; lia. }
  destruct (iter_all N S x0 S2 LS US P0 I4' I3') as (N1 & N2 & N3 & N4 & N5 & B5).
  set (x1 := nstep N x0) in *. set (x2 := nstep N x1) in *. set (x3 := nstep N x2) in *. set (x4 := nstep N x3) in *. set (x5 := nstep N x4) in *.
  assert (P62 : 2 ^ 62 = 4611686018427387904) by reflexivity. change (2 ^ 61) with 2305843009213693952 in SU.
  assert (NR0 : forall x, near S x -> 0 < x < 2 ^ 62) by (intros x [A B]; lia).
  assert (SQ : x1 * x1 < 2 ^ 63 * M /\ x2 * x2 < 2 ^ 63 * M /\ x3 * x3 < 2 ^ 63 * M /\ x4 * x4 < 2 ^ 63 * M /\ x5 * x5 < 2 ^ 63 * M).
  { destruct (Z.lt_ge_cases m (2 ^ 62)) as [Lm|Gm].
    - set (K := 2 ^ 62 * M).
      assert (NK : N < K) by (unfold N, K; apply Z.mul_lt_mono_pos_r; lia).
      assert (KL : 36893488147419103232 <= K) by (unfold K; lia).
      assert (NR : forall x, near S x -> x * x < 2 ^ 63 * M).
      { intros x [A B]. change (2 ^ 63) with (2 * 2 ^ 62). rewrite <- Z.mul_assoc. fold K.
        assert (C : (5 * x) * (5 * x) <= (6 * S + 9) * (6 * S + 9)) by (apply Z.mul_le_mono_nonneg; lia).
        assert (D : 108 * S + 81 < 14 * K).
        { destruct (Z.le_gt_cases S 1000) as [G|G]; [lia|]. assert (1000 * S <= S * S) by (clear - G; nia). lia. }
        clear - C D LS NK. nia. }
      repeat split; apply NR; auto.
    - destruct Hm as [Hm|[_ O]]; [lia|].
      assert (EL : Z.log2 m = 62) by (apply Z.log2_unique; [lia|]; change (2 ^ Z.succ 62) with (2 ^ 63); lia).
      specialize (I62 O EL). assert (I62' : x0 * x0 = 2 ^ 63 * M) by exact I62.
      assert (G : N + 8 <= x0 * x0) by (rewrite I62'; unfold N; nia). rewrite <- I62'.
      assert (ST : forall x, S <= x <= x0 -> nstep N x <= x0 - 1) by (intros x Hx; apply (stay N S x0 x); auto; lia).
      assert (A0 : S <= x0) by (clear - LS G P0 S2; nia).
      assert (A1 : x1 <= x0 - 1) by (apply ST; lia). destruct N1 as [N1 _].
      assert (A2 : x2 <= x0 - 1) by (apply ST; lia). destruct N2 as [N2 _].
      assert (A3 : x3 <= x0 - 1) by (apply ST; lia). destruct N3 as [N3 _].
      assert (A4 : x4 <= x0 - 1) by (apply ST; lia). destruct N4 as [N4 _].
      assert (A5 : x5 <= x0 - 1) by (apply ST; lia). destruct N5 as [N5 _].
      assert (SQ : forall x, S <= x -> x <= x0 - 1 -> x * x < x0 * x0) by (intros x U V; clear - U V S2; nia).
      repeat split; apply SQ; auto. }
  destruct SQ as (Q1 & Q2 & Q3 & Q4 & Q5).
  assert (START : fx_sqrt c m = sqrt_newton 5 c m e x0).
  { unfold fx_sqrt. rewrite HB. change (64 =? 32) with false. rewrite andb_false_r. unfold sqrt_generic.
    pose proof (g_valid c HS) as GV. rewrite q_top in GV.
    assert (V : valid c m = true) by (apply GV; lia).
    assert (V0 : valid c 0 = true) by (apply GV; lia).
    rewrite (g_int c HS) by exact V0. cbn [bind]. change (0 * 2 ^ cf c) with 0.
    rewrite (g_lt c HS) by auto. replace (m <? 0) with false by lia.
    rewrite (fx_eq_eq c (g_wf c HS)) by auto.
    replace (m =? 0) with false by lia. rewrite q_t, EM. cbn [bind]. rewrite E0. cbn [bind]. rewrite EE. reflexivity. }
  rewrite START.
  assert (EB : 0 <= e < 2 ^ 63).
  { split; [lia|]. change (2 ^ 63) with 9223372036854775808. change (2 ^ 59) with 576460752303423488 in M59. lia. }
  assert (DONE : forall x, near S x -> farg m x < e -> 0 < x < 2 ^ 62 /\ near S x /\ (farg m x * 65536 < 5 * M \/ 5000000000000000 * (x - S) <= S + 6750000000000000)).
  { intros x A B. split; [auto|]. split; [auto|]. left. lia. }
  rewrite (q_step 4 m e x0) by (auto; fold N x1; apply (NR0 x1 N1)). fold N x1.
  destruct (Z.ltb_spec (farg m x1) e) as [G|_]; [exists x1; split; [reflexivity|]; apply DONE; auto|].
  rewrite (q_step 3 m e x1) by (auto; first [apply (NR0 x1 N1)|fold N x2; apply (NR0 x2 N2)]). fold N x2.
  destruct (Z.ltb_spec (farg m x2) e) as [G|_]; [exists x2; split; [reflexivity|]; apply DONE; auto|].
  rewrite (q_step 2 m e x2) by (auto; first [apply (NR0 x2 N2)|fold N x3; apply (NR0 x3 N3)]). fold N x3.
  destruct (Z.ltb_spec (farg m x3) e) as [G|_]; [exists x3; split; [reflexivity|]; apply DONE; auto|].
  rewrite (q_step 1 m e x3) by (auto; first [apply (NR0 x3 N3)|fold N x4; apply (NR0 x4 N4)]). fold N x4.
  destruct (Z.ltb_spec (farg m x4) e) as [G|_]; [exists x4; split; [reflexivity|]; apply DONE; auto|].
  rewrite (q_step 0 m e x4) by (auto; first [apply (NR0 x4 N4)|fold N x5; apply (NR0 x5 N5)]). fold N x5.
  exists x5. split; [destruct (farg m x5 <? e); reflexivity|]. split; [apply (NR0 x5 N5)|]. split; auto.
Qed.
(** with an even number of fraction bits the largest argument overflows *)
Lemma q_cfg : c = S64 (cf c).
Proof using HS HB.
  pose proof q_t as T. clear M f. destruct HS as (W & _ & R & _). destruct c as [t i f r]. cbn [ct cr cf ci bits] in *. subst t r. unfold S64.
  unfold wf in W. cbn [ct ci cf cr] in W. unfold ity_ok in W. destruct i as [b s]. cbn [bits sgn int64] in W.
  assert (b = 128 /\ s = true) as [-> ->] by (destruct s; lia). reflexivity.
Qed.
Lemma top_all : forallb (fun k => match fx_sqrt (S64 (2 * Z.of_nat k)) (2 ^ 63 - 1) with UB => true | _ => false end) (seq 2 28) = true.
Proof. vm_compute. reflexivity. Qed.
Lemma sqrt_even_top : Z.odd f = false -> fx_sqrt c (2 ^ 63 - 1) = UB.
Proof using HS HB.
  intros O. pose proof (g_f c HS) as F. rewrite q_cfg. fold f in F |- *. pose proof (Z.div_mod f 2 ltac:(lia)) as D. rewrite Zmod_odd, O in D.
  pose proof top_all as A. rewrite forallb_forall in A. specialize (A (Z.to_nat (f / 2)) ltac:(apply in_seq; lia)). cbv beta in A.
  rewrite Z2Nat.id in A by lia. replace (2 * (f / 2)) with f in A by lia. destruct (fx_sqrt (S64 f) (2 ^ 63 - 1)); try discriminate. reflexivity.
Qed.
End GEN.
