(** Proofs about parts of the library that no other file covers: three-argument hypot, the digit counts of numeric_limits,
    seed sequences, fresh adapters, parameter objects, the members of ext::int128, floating literals. *)
From Coq Require Import ZArith Bool Lia Lqa QArith Qabs List.
From Verif Require Import Base Fixed Math Random Ext Literal Float Spec SpecText SpecLiteral SpecFp BaseLemmas SpecLemmas NumLemmas InProofs FixedLemmas ConvProofs MathThms RandomProofs.
Import ListNotations.
Open Scope Z_scope.

(** ** hypot(x, y, z) *)
Lemma hypot3_32 x y z a b d : valid F32 x = true -> valid F32 y = true -> valid F32 z = true ->
  is_floor 16 (qval 16 x * qval 16 x) a -> is_floor 16 (qval 16 y * qval 16 y) b -> is_floor 16 (qval 16 z * qval 16 z) d ->
  fits 32 true (a + b + d) ->
  exists r, fx_hypot3 F32 x y z = Ok r /\ valid F32 r = true /\ (0 <= qval 16 r)%Q /\
    (qval 16 r * qval 16 r <= qval 16 (a + b + d))%Q /\ (qval 16 (a + b + d) < qval 16 (r + 1) * qval 16 (r + 1))%Q.
Proof.
  intros Vx Vy Vz Fa Fb Fd FT. apply is_floor_mul in Fa, Fb, Fd; try lia.
  assert (a0 : 0 <= a) by (subst a; apply Z.div_pos; [nia|lia]).
  assert (b0 : 0 <= b) by (subst b; apply Z.div_pos; [nia|lia]).
  assert (d0 : 0 <= d) by (subst d; apply Z.div_pos; [nia|lia]).
  unfold fits, lo, hi in FT. change (2 ^ (32 - 1)) with 2147483648 in FT.
  assert (VV : forall z, 0 <= z <= 2147483647 -> valid F32 z = true).
  { intros q Hz. apply in_range_iff. change (minv (ct F32)) with (-2147483648). change (maxv (ct F32)) with 2147483647. lia. }
  unfold fx_hypot3. rewrite !fx_mul_eq by (auto; reflexivity). change (cf F32) with 16. rewrite <- Fa, <- Fb, <- Fd.
  rewrite !valid_wrap by (try reflexivity; apply VV; lia). cbn [bind].
  rewrite fx_add_eq by (try reflexivity; apply VV; lia). rewrite ovf_valid by (try reflexivity; apply VV; lia). cbn [bind].
  rewrite fx_add_eq by (try reflexivity; apply VV; lia). rewrite ovf_valid by (try reflexivity; apply VV; lia). cbn [bind].
  destruct (sqrt32_thm (a + b + d) ltac:(apply VV; lia) ltac:(apply qval_sgn; lia)) as (r & E & Vr & R0 & L & U).
  exists r. repeat split; auto. apply U. apply qval_lt. lia.
Qed.
(** the sum of the truncated squares against the exact sum *)
Lemma hypot3_acc x y z a b d : is_floor 16 (qval 16 x * qval 16 x) a -> is_floor 16 (qval 16 y * qval 16 y) b -> is_floor 16 (qval 16 z * qval 16 z) d ->
  (qval 16 (a + b + d) <= qval 16 x * qval 16 x + qval 16 y * qval 16 y + qval 16 z * qval 16 z)%Q /\
  (qval 16 x * qval 16 x + qval 16 y * qval 16 y + qval 16 z * qval 16 z < qval 16 (a + b + d) + qval 16 3)%Q.
Proof.
  intros Fa Fb [D1 D2]. destruct (hypot32_acc x y a b Fa Fb) as [S1 S2]. rewrite <- (qval_add 16 (a + b) d). rewrite <- (qval_add 16 d 1) in D2.
  split; [apply Qplus_le_compat; auto|].
  setoid_replace (qval 16 (a + b) + qval 16 d + qval 16 3)%Q with ((qval 16 (a + b) + qval 16 2) + (qval 16 d + qval 16 1))%Q.
  - apply Qplus_lt_le_compat; auto. apply Qlt_le_weak; auto.
  - setoid_replace (qval 16 3) with (qval 16 2 + qval 16 1)%Q by reflexivity. ring.
Qed.
Lemma valid0 c : wf c = true -> valid c 0 = true.
Proof.
  intros W. apply in_range_iff. unfold wf in W. assert (0 < 2 ^ (bits (ct c) - 1) /\ 0 < 2 ^ bits (ct c)) by (split; apply Z.pow_pos_nonneg; lia).
  unfold minv, maxv. destruct (sgn (ct c)); lia.
Qed.
(** a zero third leg changes nothing, in any configuration *)
Lemma hypot3_zero c x y : wf c = true -> cr c = false -> valid c x = true -> valid c y = true -> fx_hypot3 c x y 0 = fx_hypot c x y.
Proof.
  intros W NR Vx Vy. unfold fx_hypot3, fx_hypot. assert (V0 : valid c 0 = true) by (apply valid0; auto).
  rewrite (fx_mul_eq c 0 0) by auto. rewrite Z.mul_0_l, Z.div_0_l by (pose proof (cf_pos c W); lia). rewrite (valid_wrap c 0) by auto.
  rewrite !fx_mul_eq by auto. cbn [bind]. set (a := wrap _ _). set (b := wrap _ _).
  destruct (fx_add c a b) as [s| | |] eqn:E; cbn [bind]; try reflexivity.
  assert (Vs : valid c s = true) by (unfold fx_add in E; destruct (c_add _ _ _ _) as [v| | |] in E; try discriminate; cbn [bind] in E; injection E as <-; apply wrap_range, wf_ct, W).
  rewrite fx_add_eq by auto. rewrite Z.add_0_r. rewrite ovf_valid by auto. reflexivity.
Qed.

(** ** numeric_limits: digits, radix, digits10 *)
Lemma int_const c n : wf c = true -> representable (bits (ct c)) (sgn (ct c)) (cf c) (inject_Z n) ->
  exists m, fx_of_int c n = Ok m /\ valid c m = true /\ (qval (cf c) m == inject_Z n)%Q.
Proof.
  intros W R. exists (n * 2 ^ cf c). pose proof R as R'. apply rep_int in R'; auto. rewrite fx_of_int_eq by auto. rewrite valid_wrap by auto.
  split; [reflexivity|]. split; [exact R'|]. apply qval_int. apply cf_nonneg, W.
Qed.
Lemma d10_bound c : wf c = true -> let d := (bits (ct c) - 1) * 643 / 2136 in
  10 ^ d <= 2 ^ (bits (ct c) - 1) < 10 ^ (d + 1) /\ wrap (ct c) d = d.
Proof.
  intros W. assert (B : bits (ct c) = 8 \/ bits (ct c) = 16 \/ bits (ct c) = 32 \/ bits (ct c) = 64) by (unfold wf in W; lia).
  unfold wrap. destruct B as [-> | [-> | [-> | -> ]]]; destruct (sgn (ct c)); vm_compute; repeat split; congruence.
Qed.
Lemma digits_thm c : wf c = true ->
  (representable (bits (ct c)) (sgn (ct c)) (cf c) (inject_Z (bits (ct c) - 1)) ->
     exists m, nl_digits c = Ok m /\ (qval (cf c) m == inject_Z (bits (ct c) - 1))%Q) /\
  (representable (bits (ct c)) (sgn (ct c)) (cf c) (inject_Z 2) -> exists m, nl_radix c = Ok m /\ (qval (cf c) m == 2)%Q) /\
  (exists d, 10 ^ d <= 2 ^ (bits (ct c) - 1) < 10 ^ (d + 1) /\
    (representable (bits (ct c)) (sgn (ct c)) (cf c) (inject_Z d) -> exists m, nl_digits10 c = Ok m /\ (qval (cf c) m == inject_Z d)%Q)).
Proof.
  intros W. split; [|split].
  - intros R. destruct (int_const c _ W R) as (m & E & _ & Q). eauto.
  - intros R. destruct (int_const c _ W R) as (m & E & _ & Q). eauto.
  - destruct (d10_bound c W) as [B E]. exists ((bits (ct c) - 1) * 643 / 2136). split; [exact B|]. intros R. unfold nl_digits10. rewrite E.
    destruct (int_const c _ W R) as (m & E1 & _ & Q). eauto.
Qed.
Definition F8_7 : cfg := {| ct := int8; ci := int16; cf := 7; cr := false |}.
Lemma digits_refuted : wf F8_7 = true /\ nl_digits F8_7 = Ok (-128) /\ (qval 7 (-128) == -1)%Q /\ nl_radix F8_7 = Ok 0.
Proof. vm_compute. repeat split. Qed.
Lemma math_limits c m : wf c = true -> valid c m = true -> valid c (min_value c) = true /\ valid c (max_value c) = true /\
  (qval (cf c) (min_value c) <= qval (cf c) m)%Q /\ (qval (cf c) m <= qval (cf c) (max_value c))%Q.
Proof.
  intros W V. unfold min_value, max_value, nl_min, nl_max, from_internal_value. pose proof (proj1 (in_range_iff _ _) V) as B.
  assert (valid c (minv (ct c)) = true /\ valid c (maxv (ct c)) = true) as [V1 V2] by (split; apply in_range_iff; lia).
  split; [exact V1|]. split; [exact V2|]. split; apply qval_le; lia.
Qed.

(** ** random *)
Lemma seed_seq p e e' s0 s1 : pcg_ok p = true -> eng_eq p (reseed_seq p e s0 s1) (reseed_seq p e' s0 s1) = true /\
  eng_ok p (reseed_seq p e s0 s1) = true /\
  (in_range (pu p) s0 = true -> in_range (pu p) s1 = true -> m_seed (reseed_seq p e s0 s1) = s0 /\ m_state (reseed_seq p e s0 s1) = s1).
Proof.
  intros P. assert (K : ity_ok (pu p) = true) by (unfold pcg_ok in P; rewrite !andb_true_iff in P; tauto).
  assert (O : eng_ok p (reseed_seq p e s0 s1) = true) by (unfold eng_ok, reseed_seq; cbn [m_seed m_state]; rewrite !wrap_range by auto; reflexivity).
  split; [|split; [exact O|]].
  - apply C81_lemma; auto.
  - intros R0 R1. unfold reseed_seq. cbn [m_seed m_state]. rewrite !wrap_id by auto. auto.
Qed.
Lemma param_rebuild nd c dt a b d : dist_new nd c dt a b = Ok d -> dist_of_param c dt (dist_param d) = Ok d /\ dist_set_param c dt d (dist_param d) = Ok d.
Proof.
  unfold dist_new, dist_of_param, dist_set_param, dparam_new. intros E. destruct (sdist_new _ _) as [s| | |] eqn:E1 in E; try discriminate. cbn [bind] in E.
  destruct (_ || _) in E; [|discriminate]. cbn [bind] in E. injection E as <-. cbn [dist_param m_param q_a q_b]. rewrite E1. split; reflexivity.
Qed.
Lemma adapter_min_never pl e v e' : eng_ok pcg2014 e = true -> adapter_draw pl F32 pcg2014 e = Ok (v, e') -> adapter_min F32 < v.
Proof. intros O E. pose proof (adapter_nonneg pl e v e' O E). change (adapter_min F32) with (-2147483648). lia. Qed.
Lemma adapter_fresh pl c p r e' : wf c = true -> draw pl p (new_default p) = Ok (r, e') -> adapter_draw pl c p (adapter_new p) = Ok (wrap (ct c) r, e').
Proof. apply adapter_eq. Qed.

(** ** ext::int128 *)
Lemma xint_float_roundtrip k v n : 0 <= k -> is_trunc 0 (qval k v) n -> fits 64 true n ->
  exists x, xint_of_float (Z.quot v (2 ^ k)) = Ok x /\ xint_to_int64 x = n /\ low_bits x = n /\ high_bits x = 0.
Proof.
  intros K T F. unfold qval in T. rewrite is_trunc_iff, pow2p_pos, Z.mul_1_r in T by lia. rewrite <- T. unfold xint_of_float.
  replace (in_range int64 n) with true by (symmetry; apply in_range_iff; exact F). eexists. split; [reflexivity|]. auto.
Qed.
Lemma xint_parts h l : fits 64 true h -> fits 64 true l -> high_bits (xint_pair h l) = h /\ low_bits (xint_pair h l) = l.
Proof. intros H L. unfold high_bits, low_bits, xint_pair. cbn [x_high x_low]. rewrite !wrap_id by (try reflexivity; apply in_range_iff; assumption). auto. Qed.

(** ** 1.5_f32 *)
Lemma near_le p q v r : fp_nearest p q v -> fp_rep p r -> (q <= r)%Q -> (v <= r)%Q.
Proof.
  intros [_ N] R L. specialize (N r R). destruct (Qlt_le_dec r v) as [C|C]; [|exact C].
  rewrite (Qabs_pos (v - q)), (Qabs_pos (r - q)) in N by lra. lra.
Qed.
Lemma near_ge p q v r : fp_nearest p q v -> fp_rep p r -> (r <= q)%Q -> (r <= v)%Q.
Proof.
  intros [_ N] R L. specialize (N r R). destruct (Qlt_le_dec v r) as [C|C]; [|exact C].
  rewrite (Qabs_neg (v - q)), (Qabs_neg (r - q)) in N by lra. lra.
Qed.
Lemma rep16 p m : 32 <= p -> 0 <= m <= 2147483648 -> fp_rep p (qval 16 m).
Proof.
  intros P M. exists m, 0, 16. split; [lia|]. split; [lia|]. split; [|rewrite Z.mul_1_r; reflexivity].
  rewrite Z.abs_eq by lia. pose proof (Z.pow_le_mono_r 2 32 p ltac:(lia) P). change (2 ^ 32) with 4294967296 in *. lia.
Qed.
Lemma digits_of b s ds : digit_seq b s ds -> is_digits b ds.
Proof. induction 1; constructor; auto; constructor. Qed.
Lemma float_literal_nonneg s q : float_literal s q -> (0 <= q)%Q.
Proof.
  assert (G : forall s t ip fp, digit_seq 10 s ip -> digit_seq 10 t fp -> (0 <= numeral 10 false ip fp)%Q).
  { intros s0 t ip fp S T. apply Qle_trans with (inject_Z (num 10 ip)); [|apply int_le_numeral, (digits_of _ _ _ T)].
    change 0%Q with (inject_Z 0). rewrite <- Zle_Qle. apply num_nonneg; [lia|]. apply (digits_of _ _ _ S). }
  assert (T : forall z, (0 <= inject_Z (10 ^ z))%Q) by (intros z; change 0%Q with (inject_Z 0); rewrite <- Zle_Qle; apply Z.pow_nonneg; lia).
  intros L. inversion L; subst.
  - eapply G; eassumption.
  - apply Qmult_le_0_compat; [eapply G; eassumption|apply T].
  - apply Qmult_le_0_compat; [eapply G; eassumption|apply Qinv_le_0_compat, T].
Qed.
Lemma f32_float s q n k : float_literal s q -> 0 <= k -> fp_nearest 64 q (qval k n) -> (q <= qval 16 2147483647)%Q ->
  exists m, f32_float_literal n k = Ok m /\ valid F32 m = true /\ (Qabs (q - qval 16 m) < qval 16 1)%Q /\
    ((q == qval k n)%Q -> is_trunc 16 q m).
Proof.
  intros L K N U. apply float_literal_nonneg in L. assert (Q0 : (qval 16 0 == 0)%Q) by reflexivity.
  assert (V0 : (0 <= qval k n)%Q) by (rewrite <- Q0; apply (near_ge 64 q _ (qval 16 0) N); [apply rep16; lia|rewrite Q0; exact L]).
  assert (V1 : (qval k n <= qval 16 2147483647)%Q) by (apply (near_le 64 q _ _ N); [apply rep16; lia|exact U]).
  set (m := Z.quot (n * 2 ^ 16) (2 ^ k)). assert (T : is_trunc 16 (qval k n) m) by (unfold qval at 1; apply is_trunc_iff; [lia|]; rewrite pow2p_pos by lia; reflexivity).
  destruct (proj1 T V0) as [T1 T2].
  assert (M0 : 0 <= m). { assert (0 < m + 1); [|lia]. apply (qval_lt 16). rewrite Q0. apply Qle_lt_trans with (qval k n); [exact V0|exact T2]. }
  assert (M1 : m <= 2147483647). { apply (qval_le 16). apply Qle_trans with (qval k n); [exact T1|exact V1]. }
  assert (V : valid F32 m = true) by (apply in_range_iff; cbn; lia).
  exists m. split; [|split; [exact V|split]].
  - unfold f32_float_literal. rewrite (float_ctor_trunc F32 n k m eq_refl eq_refl K T). unfold valid in V. rewrite V. reflexivity.
  - apply Qabs_Qlt_condition. split.
    + destruct (Z.eq_dec m 0) as [->|NZ]; [rewrite Q0; assert (0 < qval 16 1)%Q by reflexivity; lra|].
      destruct (Qlt_le_dec (qval 16 (m - 1)) q) as [C|C].
      * setoid_replace (qval 16 (m - 1)) with (qval 16 m - qval 16 1)%Q in C by (rewrite qval_minus; reflexivity). lra.
      * pose proof (near_le 64 q _ _ N (rep16 64 (m - 1) ltac:(lia) ltac:(lia)) C) as X.
        assert (qval 16 (m - 1) < qval 16 m)%Q by (apply qval_lt; lia). lra.
    + destruct (Qlt_le_dec q (qval 16 (m + 1))) as [C|C].
      * rewrite <- (qval_add 16 m 1) in C. lra.
      * pose proof (near_ge 64 q _ _ N (rep16 64 (m + 1) ltac:(lia) ltac:(lia)) C) as X. lra.
  - intros E. revert T. apply is_trunc_Qeq. symmetry. exact E.
Qed.
