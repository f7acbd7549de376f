(** floor, ceil, trunc and round against one another: order, idempotence and symmetry (compositions of the one-call results of
    MathThms.v). *)
From Coq Require Import ZArith Bool List Lia ZifyBool QArith Qabs Zquot.
From Verif Require Import Base Fixed Math Spec BaseLemmas SpecLemmas FixedLemmas CLemmas ArithProofs MathProofs MathThms.
Open Scope Z_scope.

(** where floor, ceil (of a non-negative value) and round have the right result (C27, C28, C29) *)
Definition floor_dom (c : cfg) (m : Z) : Prop :=
  (0 <= qval (cf c) m)%Q \/ (int_bit c /\ fits (bits (ct c)) (sgn (ct c)) (m - (2 ^ cf c - 1))).
Definition ceil_dom (c : cfg) (m : Z) : Prop :=
  (0 <= qval (cf c) m)%Q /\ exists n, is_ceil 0 (qval (cf c) m) n /\ representable (bits (ct c)) (sgn (ct c)) (cf c) (inject_Z n).
Definition round_dom (c : cfg) (m : Z) : Prop :=
  exists n, is_nearest_away 0 (qval (cf c) m) n /\ representable (bits (ct c)) (sgn (ct c)) (cf c) (inject_Z n).

(** ** integer facts *)
Definition na (M m : Z) : Z := if 0 <=? m then (2 * m + M) / (2 * M) else - ((2 * (- m) + M) / (2 * M)).
Lemma na_mono M m n : 0 < M -> m <= n -> na M m <= na M n.
Proof.
  intros P L. unfold na. destruct (Z.leb_spec 0 m), (Z.leb_spec 0 n); try lia.
  - apply Z.div_le_mono; lia.
  - assert (0 <= (2 * - m + M) / (2 * M)) by (apply Z.div_pos; lia).
    assert (0 <= (2 * n + M) / (2 * M)) by (apply Z.div_pos; lia). lia.
  - assert ((2 * - n + M) / (2 * M) <= (2 * - m + M) / (2 * M)) by (apply Z.div_le_mono; lia). lia.
Qed.
Lemma na_mult M n : 0 < M -> na M (n * M) = n.
Proof.
  intros P. unfold na. destruct (Z.leb_spec 0 (n * M)).
  - symmetry. apply Z.div_unique with M; lia.
  - assert ((2 * - (n * M) + M) / (2 * M) = - n); [|lia]. symmetry. apply Z.div_unique with M; lia.
Qed.
Lemma na_opp M m : 0 < M -> na M (- m) = - na M m.
Proof.
  intros P. unfold na. destruct (Z.leb_spec 0 m), (Z.leb_spec 0 (- m)); try lia.
  - assert (m = 0) by lia. subst. change (2 * - 0 + M) with M. change (2 * 0 + M) with M. rewrite Z.div_small; lia.
  - rewrite Z.opp_involutive. ring.
Qed.

(** ** the values *)
Lemma floor_val c m : wf c = true -> valid c m = true -> floor_dom c m ->
  fx_floor c m = Ok (m / 2 ^ cf c * 2 ^ cf c) /\ valid c (m / 2 ^ cf c * 2 ^ cf c) = true.
Proof.
  intros W V D. pose proof (cf_ge0 c W) as F.
  destruct (floor_thm c m (m / 2 ^ cf c) W V (proj2 (is_floor_int _ _ _ F) eq_refl) D) as (r & E & Vr & Q).
  rewrite <- (qval_int (cf c) (m / 2 ^ cf c) F) in Q. apply qval_eq in Q. subst r. auto.
Qed.
Lemma ceil_val c m : wf c = true -> valid c m = true -> ceil_dom c m ->
  fx_ceil c m = Ok (- (- m / 2 ^ cf c) * 2 ^ cf c) /\ valid c (- (- m / 2 ^ cf c) * 2 ^ cf c) = true.
Proof.
  intros W V (L & n & I & R). pose proof (cf_ge0 c W) as F.
  destruct (ceil_thm c m n W V I L R) as (r & E & Vr & Q). apply is_ceil_int in I; auto. subst n.
  rewrite <- (qval_int (cf c) _ F) in Q. apply qval_eq in Q. subst r. auto.
Qed.
Lemma ceil_neg_val c m : wf c = true -> valid c m = true -> int_bit c -> (qval (cf c) m < 0)%Q ->
  fx_ceil c m = Ok (- (- m / 2 ^ cf c) * 2 ^ cf c + (2 ^ cf c - 1)).
Proof. intros W V I L. rewrite ceil_neg_eq; auto; [apply qval_neg in L; auto|apply int_bit_q; auto]. Qed.
Lemma round_val c m : wf c = true -> valid c m = true -> round_dom c m ->
  fx_round c m = Ok (na (2 ^ cf c) m * 2 ^ cf c) /\ valid c (na (2 ^ cf c) m * 2 ^ cf c) = true.
Proof.
  intros W V (n & I & R). pose proof (cf_ge0 c W) as F.
  destruct (round_thm c m n W V I R) as (r & E & Vr & Q).
  unfold qval in I. apply is_nearest_away_iff in I; [|lia]. rewrite pow2p_pos in I by auto. rewrite !Z.mul_1_r in I.
  rewrite <- (qval_int (cf c) _ F) in Q. apply qval_eq in Q. subst r n. auto.
Qed.
Lemma trunc_val c m : wf c = true -> valid c m = true ->
  fx_trunc c m = Ok (Z.quot m (2 ^ cf c) * 2 ^ cf c) /\ valid c (Z.quot m (2 ^ cf c) * 2 ^ cf c) = true.
Proof.
  intros W V. split; [apply trunc_eq; auto|]. apply between_valid with m; auto. apply quot_mul_between; auto.
Qed.

(** ** order *)
Lemma trunc_order c m n : wf c = true -> valid c m = true -> valid c n = true -> (qval (cf c) m <= qval (cf c) n)%Q ->
  exists r s, fx_trunc c m = Ok r /\ fx_trunc c n = Ok s /\ (qval (cf c) r <= qval (cf c) s)%Q.
Proof.
  intros W Vm Vn L. rewrite qval_le in L. pose proof (cf_pos c W) as P.
  do 2 eexists. split; [apply trunc_val; auto|]. split; [apply trunc_val; auto|].
  rewrite qval_le. apply Z.mul_le_mono_nonneg_r; [lia|]. apply Z.quot_le_mono; lia.
Qed.
Lemma floor_order c m n : wf c = true -> valid c m = true -> valid c n = true -> floor_dom c m -> floor_dom c n ->
  (qval (cf c) m <= qval (cf c) n)%Q ->
  exists r s, fx_floor c m = Ok r /\ fx_floor c n = Ok s /\ (qval (cf c) r <= qval (cf c) s)%Q.
Proof.
  intros W Vm Vn Dm Dn L. rewrite qval_le in L. pose proof (cf_pos c W) as P.
  do 2 eexists. split; [apply floor_val; auto|]. split; [apply floor_val; auto|].
  rewrite qval_le. apply Z.mul_le_mono_nonneg_r; [lia|]. apply Z.div_le_mono; lia.
Qed.
Lemma ceil_order c m n : wf c = true -> valid c m = true -> valid c n = true -> ceil_dom c m -> ceil_dom c n ->
  (qval (cf c) m <= qval (cf c) n)%Q ->
  exists r s, fx_ceil c m = Ok r /\ fx_ceil c n = Ok s /\ (qval (cf c) r <= qval (cf c) s)%Q.
Proof.
  intros W Vm Vn Dm Dn L. rewrite qval_le in L. pose proof (cf_pos c W) as P.
  do 2 eexists. split; [apply ceil_val; auto|]. split; [apply ceil_val; auto|].
  rewrite qval_le. apply Z.mul_le_mono_nonneg_r; [lia|]. 
  pose proof (Z.div_le_mono (- n) (- m) (2 ^ cf c) P ltac:(lia)). lia.
Qed.
Lemma ceil_order_neg c m n : wf c = true -> valid c m = true -> valid c n = true -> int_bit c ->
  (qval (cf c) m <= qval (cf c) n)%Q -> (qval (cf c) n < 0)%Q ->
  exists r s, fx_ceil c m = Ok r /\ fx_ceil c n = Ok s /\ (qval (cf c) r <= qval (cf c) s)%Q.
Proof.
  intros W Vm Vn I L N. assert (N' : (qval (cf c) m < 0)%Q) by (eapply Qle_lt_trans; eauto).
  rewrite qval_le in L. pose proof (cf_pos c W) as P.
  do 2 eexists. split; [apply ceil_neg_val; auto|]. split; [apply ceil_neg_val; auto|].
  rewrite qval_le. pose proof (Z.div_le_mono (- n) (- m) (2 ^ cf c) P ltac:(lia)).
  pose proof (Z.mul_le_mono_nonneg_r _ _ (2 ^ cf c) ltac:(lia) H). lia.
Qed.
Lemma round_order c m n : wf c = true -> valid c m = true -> valid c n = true -> round_dom c m -> round_dom c n ->
  (qval (cf c) m <= qval (cf c) n)%Q ->
  exists r s, fx_round c m = Ok r /\ fx_round c n = Ok s /\ (qval (cf c) r <= qval (cf c) s)%Q.
Proof.
  intros W Vm Vn Dm Dn L. rewrite qval_le in L. pose proof (cf_pos c W) as P.
  do 2 eexists. split; [apply round_val; auto|]. split; [apply round_val; auto|].
  rewrite qval_le. apply Z.mul_le_mono_nonneg_r; [lia|]. apply na_mono; lia.
Qed.
(** just below zero the ceiling is nearly one, above that of zero *)
Lemma ceil_order_refuted : exists m n r s, valid F32 m = true /\ valid F32 n = true /\ (qval 16 m < qval 16 n)%Q /\
  fx_ceil F32 m = Ok r /\ fx_ceil F32 n = Ok s /\ (qval 16 s < qval 16 r)%Q.
Proof. exists (-32768), 0, 65535, 0. vm_compute. repeat split. Qed.

(** ** idempotence *)
Lemma trunc_idem c m : wf c = true -> valid c m = true -> exists r, fx_trunc c m = Ok r /\ fx_trunc c r = Ok r.
Proof.
  intros W V. pose proof (cf_pos c W) as P. destruct (trunc_val c m W V) as [E V']. eexists. split; [exact E|].
  rewrite (proj1 (trunc_val c _ W V')). rewrite Z.quot_mul by lia. reflexivity.
Qed.
Lemma floor_idem c m : wf c = true -> valid c m = true -> floor_dom c m ->
  exists r, fx_floor c m = Ok r /\ (floor_dom c r -> fx_floor c r = Ok r).
Proof.
  intros W V D. pose proof (cf_pos c W) as P. destruct (floor_val c m W V D) as [E V']. eexists. split; [exact E|].
  intros D'. rewrite (proj1 (floor_val c _ W V' D')). rewrite Z.div_mul by lia. reflexivity.
Qed.
(** two floors may be undefined where one is not *)
Lemma floor_idem_refuted : exists m r, valid F32 m = true /\ fx_floor F32 m = Ok r /\ fx_floor F32 r = UB.
Proof. exists (-2147418113), (-2147483648). vm_compute. repeat split. Qed.
Lemma ceil_idem c m : wf c = true -> valid c m = true -> ceil_dom c m ->
  exists r, fx_ceil c m = Ok r /\ fx_ceil c r = Ok r.
Proof.
  intros W V D. pose proof (cf_pos c W) as P. pose proof (cf_ge0 c W) as F. destruct (ceil_val c m W V D) as [E V']. eexists. split; [exact E|].
  set (r := - (- m / 2 ^ cf c) * 2 ^ cf c) in *.
  assert (D' : ceil_dom c r).
  { split.
    - rewrite qval_sgn. destruct D as [L _]. rewrite qval_sgn in L. unfold r.
      assert (- m / 2 ^ cf c <= 0) by (apply Z.div_le_upper_bound; lia). nia.
    - exists (- (- m / 2 ^ cf c)). split.
      + apply is_ceil_int; auto. unfold r. rewrite <- Z.mul_opp_l, Z.opp_involutive, Z.div_mul by lia. reflexivity.
      + exists r. split; [apply fits_iff; auto|]. apply qval_int; auto. }
  rewrite (proj1 (ceil_val c r W V' D')). f_equal. unfold r. rewrite <- Z.mul_opp_l, Z.opp_involutive, Z.div_mul by lia. reflexivity.
Qed.
Lemma ceil_idem_refuted : exists m r s, valid F32 m = true /\ fx_ceil F32 m = Ok r /\ fx_ceil F32 r = Ok s /\ s <> r.
Proof. exists (-98304), (-1), 65535. vm_compute. repeat split. discriminate. Qed.
Lemma round_idem c m : wf c = true -> valid c m = true -> round_dom c m ->
  exists r, fx_round c m = Ok r /\ fx_round c r = Ok r.
Proof.
  intros W V D. pose proof (cf_pos c W) as P. pose proof (cf_ge0 c W) as F. destruct (round_val c m W V D) as [E V']. eexists. split; [exact E|].
  assert (D' : round_dom c (na (2 ^ cf c) m * 2 ^ cf c)).
  { exists (na (2 ^ cf c) m). split.
    - unfold qval. apply is_nearest_away_iff; [lia|]. rewrite pow2p_pos by auto. rewrite !Z.mul_1_r.
      symmetry. exact (na_mult (2 ^ cf c) (na (2 ^ cf c) m) P).
    - eexists. split; [apply fits_iff; exact V'|]. apply qval_int; auto. }
  rewrite (proj1 (round_val c _ W V' D')). rewrite na_mult by auto. reflexivity.
Qed.

(** ** symmetry *)
Lemma trunc_odd c m : wf c = true -> valid c m = true -> valid c (- m) = true ->
  exists r, fx_trunc c m = Ok r /\ fx_trunc c (- m) = Ok (- r).
Proof.
  intros W V V'. pose proof (cf_pos c W) as P. eexists. split; [apply trunc_val; auto|].
  rewrite (proj1 (trunc_val c _ W V')). rewrite Z.quot_opp_l by lia. f_equal. ring.
Qed.
Lemma round_odd c m : wf c = true -> valid c m = true -> valid c (- m) = true -> round_dom c m -> round_dom c (- m) ->
  exists r, fx_round c m = Ok r /\ fx_round c (- m) = Ok (- r).
Proof.
  intros W V V' D D'. pose proof (cf_pos c W) as P. eexists. split; [apply round_val; auto|].
  rewrite (proj1 (round_val c _ W V' D')). rewrite na_opp by lia. f_equal. ring.
Qed.
Lemma floor_ceil c m : wf c = true -> valid c m = true -> valid c (- m) = true -> ceil_dom c m -> floor_dom c (- m) ->
  exists r, fx_ceil c m = Ok r /\ fx_floor c (- m) = Ok (- r).
Proof.
  intros W V V' D D'. pose proof (cf_pos c W) as P. eexists. split; [apply ceil_val; auto|].
  rewrite (proj1 (floor_val c _ W V' D')). f_equal. ring.
Qed.
(** of a negative value the ceiling is not the mirrored floor *)
Lemma floor_ceil_refuted : exists m r s, valid F32 m = true /\ valid F32 (- m) = true /\ fx_floor F32 m = Ok r /\
  fx_ceil F32 (- m) = Ok s /\ s <> - r.
Proof. exists 65536, 65536, (-1). vm_compute. repeat split. discriminate. Qed.
