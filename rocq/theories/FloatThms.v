(** More proofs about the floating-point conversions: definedness, halving, casts, the class intermediate type. *)
From Coq Require Import ZArith Bool Lia QArith Qabs.
From Verif Require Import Base Fixed Float Spec SpecFp BaseLemmas SpecLemmas FixedLemmas ConvProofs RefuteArith FloatProofs.
Open Scope Z_scope.

(** rounding = true, non-negative argument: half the value, truncated *)
Lemma rounding_halves p c n k m : wf c = true -> cr c = true -> 0 <= k -> 0 <= n ->
  is_trunc (cf c) ((1 # 2) * qval k n) m -> fx_of_fval p c (Fin n k) = if in_range (ct c) m then Ok m else UB.
Proof.
  intros H R K N T. unfold qval, Qmult in T. cbn [Qnum Qden] in T. rewrite is_trunc_iff in T by auto using cf_nonneg.
  rewrite Pos2Z.inj_mul, pow2p_pos, Z.mul_1_l in T by auto. unfold fx_of_fval, float_to_int. rewrite R. replace (0 <=? n) with true by lia.
  rewrite (Z.mul_comm (2 ^ k) 2), <- T. reflexivity.
Qed.
Lemma rounding_never_nearest p c n k m : wf c = true -> cr c = true -> 0 <= k ->
  (qval (cf c) 1 < qval k n)%Q -> fx_of_fval p c (Fin n k) = Ok m -> ~ is_nearest (cf c) (qval k n) m.
Proof.
  intros H R K G E (_ & HI). pose proof (cf_nonneg c H) as F0. pose proof (cf_pos c H) as WF. pose proof (p2 k K) as WK.
  unfold qval, Qlt, Qle in *. cbn [Qnum Qden] in *. rewrite !pow2p_pos in * by lia. rewrite Z.pow_add_r in HI by lia. change (2 ^ 1) with 2 in HI.
  assert (0 < n) by nia. unfold fx_of_fval, float_to_int in E. rewrite R in E. replace (0 <=? n) with true in E by lia.
  destruct (in_range _ _) eqn:IR in E; [|discriminate]. injection E as <-. rewrite Z.quot_div_nonneg in HI by lia.
  set (F := 2 ^ cf c) in *. pose proof (Z.mul_div_le (n * F) (2 ^ k * 2) ltac:(lia)) as D. set (q := n * F / (2 ^ k * 2)) in *. set (w := 2 ^ k) in *. clearbody q w F. nia.
Qed.
(** definedness, rounding = false *)
Lemma quot_range N D a b : 0 < D -> a <= 0 <= b -> (a <= Z.quot N D <= b <-> (a - 1) * D < N < (b + 1) * D).
Proof.
  intros PD AB. destruct (Z_le_gt_dec 0 N) as [S|S].
  - rewrite Z.quot_div_nonneg by lia. pose proof (Z.div_mod N D ltac:(lia)) as E. pose proof (Z.mod_pos_bound N D PD) as M.
    set (q := N / D) in *. clearbody q. set (r := N mod D) in *. clearbody r. subst N. split; intros; [nia|]. assert (0 <= q) by nia. nia.
  - replace N with (- (- N)) by lia. rewrite Z.quot_opp_l, Z.quot_div_nonneg by lia. pose proof (Z.div_mod (- N) D ltac:(lia)) as E. pose proof (Z.mod_pos_bound (- N) D PD) as M.
    set (q := - N / D) in *. clearbody q. set (r := - N mod D) in *. clearbody r. assert (EN : N = - (D * q + r)) by lia. assert (0 <= q) by nia. clear E. subst N. split; intros; nia.
Qed.
Lemma ctor_defined_iff p c n k : wf c = true -> cr c = false -> 0 <= k ->
  ((exists m, fx_of_fval p c (Fin n k) = Ok m) <->
   (qval (cf c) (lo (bits (ct c)) (sgn (ct c)) - 1) < qval k n < qval (cf c) (hi (bits (ct c)) (sgn (ct c)) + 1))%Q).
Proof.
  intros H R K. pose proof (cf_nonneg c H) as F0. pose proof (p2 k K) as WK. unfold fx_of_fval, float_to_int. rewrite R. cbv zeta.
  unfold qval, Qlt. cbn [Qnum Qden]. rewrite !pow2p_pos by lia.
  rewrite <- (quot_range (n * 2 ^ cf c) (2 ^ k) (lo (bits (ct c)) (sgn (ct c))) (hi (bits (ct c)) (sgn (ct c)))); [|lia|].
  - change (lo (bits (ct c)) (sgn (ct c))) with (minv (ct c)). change (hi (bits (ct c)) (sgn (ct c))) with (maxv (ct c)).
    destruct (in_range (ct c) _) eqn:E; unfold in_range in E.
    + split; [intros _; lia|]. eauto.
    + split; [intros (m & X); discriminate|]. intros B. exfalso. lia.
  - assert (0 < 2 ^ (bits (ct c) - 1) /\ 0 < 2 ^ bits (ct c)) by (unfold wf in H; split; apply p2; lia). unfold lo, hi. destruct (sgn (ct c)); lia.
Qed.
(** the cast *)
Lemma cast_nearest p c m n : 1 <= p -> wf c = true -> valid c m = true -> is_trunc 0 (qval (cf c) m) n ->
  exists r, fx_to_fval p c m = Ok (Fin r 0) /\ fp_nearest p (inject_Z n) (inject_Z r) /\ (Z.abs n <= 2 ^ p -> r = n).
Proof.
  intros P H V T. exists (rne p n). unfold fx_to_fval. rewrite (float_cast_trunc c m n H V T). split; [reflexivity|].
  split; [exact (rne_nearest p n 0 P ltac:(lia))|]. intros B. apply rne_exact; [exact P|].
  pose proof (p2 p ltac:(lia)). destruct (Z.eq_dec (Z.abs n) (2 ^ p)) as [E|E].
  - exists (Z.sgn n), p. split; [lia|]. split.
    + assert (2 <= 2 ^ p) by (replace p with (Z.succ (p - 1)) by lia; rewrite Z.pow_succ_r by lia; pose proof (p2 (p - 1) ltac:(lia)); lia). lia.
    + rewrite <- E. symmetry. rewrite Z.mul_comm. apply Z.abs_sgn.
  - exists n, 0. split; [lia|]. split; [lia|]. rewrite Z.mul_1_r. reflexivity.
Qed.
Lemma cast_roundtrip p c m : wf c = true -> cr c = false -> valid c m = true -> is_int (qval (cf c) m) -> bits (ct c) - cf c <= p ->
  (let* v := fx_to_fval p c m in fx_of_fval p c v) = Ok m.
Proof.
  intros H R V (n & E) P. pose proof (cf_nonneg c H) as F0. pose proof (cf_pos c H) as WF.
  unfold qval, inject_Z, Qeq in E. cbn [Qnum Qden] in E. rewrite pow2p_pos, Z.mul_1_r in E by lia.
  assert (P1 : 1 <= p) by (unfold wf in H; lia).
  assert (B : Z.abs n <= 2 ^ p).
  { assert (VB : Z.abs m <= 2 ^ bits (ct c)).
    { unfold valid, in_range, minv, maxv in V. assert (2 ^ (bits (ct c) - 1) <= 2 ^ bits (ct c)) by (apply Z.pow_le_mono_r; lia). destruct (sgn (ct c)); lia. }
    assert (X : 2 ^ bits (ct c) = 2 ^ (bits (ct c) - cf c) * 2 ^ cf c) by (rewrite <- Z.pow_add_r by (unfold wf in H; lia); f_equal; lia).
    assert (2 ^ (bits (ct c) - cf c) <= 2 ^ p) by (apply Z.pow_le_mono_r; lia). rewrite E, Z.abs_mul, (Z.abs_eq (2 ^ cf c)), X in VB by lia. nia. }
  assert (T : is_trunc 0 (qval (cf c) m) n).
  { unfold qval. rewrite is_trunc_iff, pow2p_pos by lia. rewrite Z.mul_1_r, E, Z.quot_mul by lia. reflexivity. }
  destruct (cast_nearest p c m n P1 H V T) as (r & -> & _ & X). rewrite (X B). cbn [bind]. apply fval_exact; auto; [lia|].
  unfold qval, Qeq. cbn [Qnum Qden]. rewrite !pow2p_pos by lia. rewrite E. cbn. ring.
Qed.
(** the class intermediate type *)
Lemma class_ctor_trunc c n k i : wf c = true -> 0 <= k -> is_trunc 0 (qval k n) i ->
  representable (bits (ct c)) (sgn (ct c)) (cf c) (inject_Z i) ->
  exists m, fx_of_fval_class c (Fin n k) = Ok m /\ valid c m = true /\ (qval (cf c) m == inject_Z i)%Q.
Proof.
  intros H K T (m & FM & E). exists m. pose proof (cf_nonneg c H) as F0. pose proof (cf_pos c H) as WF.
  assert (V : valid c m = true) by (unfold valid, in_range, minv, maxv; unfold fits, lo, hi in FM; destruct (sgn (ct c)); lia).
  split; [|auto]. unfold qval in T. rewrite is_trunc_iff, pow2p_pos, Z.mul_1_r in T by lia.
  unfold qval, inject_Z, Qeq in E. cbn [Qnum Qden] in E. rewrite pow2p_pos, Z.mul_1_r in E by lia.
  assert (VI : in_range (ct c) i = true).
  { unfold valid, in_range, minv, maxv in *. destruct (sgn (ct c)); nia. }
  unfold fx_of_fval_class, float_to_int. rewrite <- T, VI. cbn [bind]. rewrite <- E. rewrite (wrap_ci c m H V). f_equal. apply wrap_id; [apply wf_ct, H|exact V].
Qed.
(** witnesses *)
Lemma float_rounding_refuted :
  (exists n k m, 0 <= k /\ n < 0 /\ fp_rep 53 (qval k n) /\ fx_of_fval 53 F32r (Fin n k) = Ok m /\ ~ is_nearest (cf F32r) (qval k n) m) /\
  (exists n k m, 0 <= k /\ n < 0 /\ fp_rep 24 (qval k n) /\ fx_of_fval 24 F32r (Fin n k) = Ok m /\ ~ is_nearest (cf F32r) (qval k n) m).
Proof.
  split.
  - exists (- (2 ^ 53 - 1)), 70, (-1). split; [lia|]. split; [lia|]. split; [apply irep_fp; [lia|]; exists (- (2 ^ 53 - 1)), 0; repeat split; try lia|].
    split; [vm_compute; reflexivity|]. intros (_ & X). vm_compute in X. congruence.
  - exists (- (2 ^ 23 + 1)), 16, (- (2 ^ 23 + 2)). split; [lia|]. split; [lia|]. split; [apply irep_fp; [lia|]; exists (- (2 ^ 23 + 1)), 0; repeat split; try lia|].
    split; [vm_compute; reflexivity|]. intros (_ & X). vm_compute in X. congruence.
Qed.
Lemma ctor_defined_all p c v : wf c = true -> cr c = false -> (forall n k, v = Fin n k -> 0 <= k) ->
  ((exists m, fx_of_fval p c v = Ok m) <->
   exists n k, v = Fin n k /\
   (qval (cf c) (lo (bits (ct c)) (sgn (ct c)) - 1) < qval k n < qval (cf c) (hi (bits (ct c)) (sgn (ct c)) + 1))%Q).
Proof.
  intros H R K. split.
  - intros (m & E). destruct v as [n k| |]; [|discriminate|discriminate]. exists n, k. split; [reflexivity|].
    apply (ctor_defined_iff p c n k H R (K n k eq_refl)). eauto.
  - intros (n & k & E & B). subst v. apply (ctor_defined_iff p c n k H R (K n k eq_refl)). exact B.
Qed.
Lemma class_ctor_refuted : exists n k m, 0 <= k /\ representable (bits (ct F64)) (sgn (ct F64)) (cf F64) (qval k n) /\
  fx_of_fval_class F64 (Fin n k) = Ok m /\ ~ is_trunc (cf F64) (qval k n) m /\ fx_of_fval 53 F64 (Fin n k) <> Ok m.
Proof.
  exists 3, 1, (2 ^ 32). split; [lia|]. split; [exists (3 * 2 ^ 31); split; [vm_compute; split; congruence|reflexivity]|]. split; [vm_compute; reflexivity|].
  split; [|vm_compute; congruence]. intros (X & _). destruct X as (_ & X); [vm_compute; congruence|]. vm_compute in X. congruence.
Qed.
