(** Facts about the C++ integer layer. *)
From Coq Require Import ZArith Bool List Lia ZifyBool QArith.
From Verif Require Import Base Fixed Spec.
Open Scope Z_scope.

(** lia after dropping boolean hypotheses (ZifyBool would case-split on each of them) *)
Ltac cb := repeat match goal with H : @eq bool _ _ |- _ => clear H end.
Ltac zlia := solve [cb; lia].
Ltac znia := solve [cb; nia].

Lemma pow2_pos n : 0 <= n -> 0 < 2 ^ n.
Proof. intros; apply Z.pow_pos_nonneg; lia. Qed.

Lemma ity_ok_bits t : ity_ok t = true ->
  bits t = 8 \/ bits t = 16 \/ bits t = 32 \/ bits t = 64 \/ bits t = 128.
Proof. unfold ity_ok. lia. Qed.

Lemma ity_ok_pow t : ity_ok t = true -> 2 ^ bits t = 2 * 2 ^ (bits t - 1) /\ 0 < 2 ^ (bits t - 1).
Proof.
  intros H. apply ity_ok_bits in H. split.
  - replace (bits t) with (1 + (bits t - 1)) at 1 by lia.
    rewrite Z.pow_add_r by lia. lia.
  - apply pow2_pos. lia.
Qed.

Lemma in_range_iff t x : in_range t x = true <-> minv t <= x <= maxv t.
Proof. unfold in_range. lia. Qed.

Lemma wrap_cong t x : ity_ok t = true -> exists k, wrap t x = x + k * 2 ^ bits t.
Proof.
  intros H. destruct (ity_ok_pow t H) as [E P]. unfold wrap. destruct (sgn t).
  - exists (- ((x + 2 ^ (bits t - 1)) / 2 ^ bits t)).
    pose proof (Z.div_mod (x + 2 ^ (bits t - 1)) (2 ^ bits t) ltac:(lia)). lia.
  - exists (- (x / 2 ^ bits t)).
    pose proof (Z.div_mod x (2 ^ bits t) ltac:(lia)). lia.
Qed.

Lemma wrap_range t x : ity_ok t = true -> in_range t (wrap t x) = true.
Proof.
  intros H. destruct (ity_ok_pow t H) as [E P].
  unfold in_range, wrap, minv, maxv. destruct (sgn t).
  - pose proof (Z.mod_pos_bound (x + 2 ^ (bits t - 1)) (2 ^ bits t) ltac:(lia)). lia.
  - pose proof (Z.mod_pos_bound x (2 ^ bits t) ltac:(lia)). lia.
Qed.

Lemma wrap_unique t x y k : ity_ok t = true -> in_range t y = true ->
  y = x + k * 2 ^ bits t -> wrap t x = y.
Proof.
  intros H R E. destruct (ity_ok_pow t H) as [E2 P].
  unfold in_range, wrap, minv, maxv in *. destruct (sgn t).
  - assert (x + 2 ^ (bits t - 1) = (y + 2 ^ (bits t - 1)) + (- k) * 2 ^ bits t) as -> by lia.
    rewrite Z.mod_add by lia. rewrite Z.mod_small; lia.
  - assert (x = y + (- k) * 2 ^ bits t) as -> by lia.
    rewrite Z.mod_add by lia. rewrite Z.mod_small; lia.
Qed.

Lemma wrap_id t x : ity_ok t = true -> in_range t x = true -> wrap t x = x.
Proof. intros H R. apply (wrap_unique t x x 0 H R). lia. Qed.

Lemma wrap_add_mult t x k : ity_ok t = true -> wrap t (x + k * 2 ^ bits t) = wrap t x.
Proof.
  intros H. destruct (wrap_cong t x H) as [j E].
  apply (wrap_unique _ _ _ (j - k) H (wrap_range t x H)). lia.
Qed.

Lemma wrap_cong_eq t x y k : ity_ok t = true -> x = y + k * 2 ^ bits t -> wrap t x = wrap t y.
Proof. intros H ->. apply wrap_add_mult, H. Qed.

Lemma wrap_narrow t t' x : ity_ok t = true -> ity_ok t' = true -> bits t <= bits t' ->
  wrap t (wrap t' x) = wrap t x.
Proof.
  intros H H' L. destruct (wrap_cong t' x H') as [k ->].
  pose proof (ity_ok_bits t H). pose proof (ity_ok_bits t' H').
  replace (2 ^ bits t') with (2 ^ (bits t' - bits t) * 2 ^ bits t).
  - rewrite Z.mul_assoc. apply wrap_add_mult, H.
  - rewrite <- Z.pow_add_r by lia. f_equal. lia.
Qed.

Lemma promote_ok t : ity_ok t = true -> ity_ok (promote t) = true.
Proof. intros. unfold promote. destruct (bits t <? 32); auto. Qed.

Lemma promote_range t x : ity_ok t = true -> in_range t x = true -> in_range (promote t) x = true.
Proof.
  intros H R. unfold promote. destruct (Z.ltb_spec (bits t) 32); auto.
  destruct t as [b s]. unfold ity_ok in H. cbn [bits] in *.
  assert (b = 8 \/ b = 16) as [-> | ->] by lia;
  destruct s; unfold in_range, minv, maxv in *; cbn in *; lia.
Qed.

Lemma promote_bits t : ity_ok t = true -> bits t <= bits (promote t) /\ 32 <= bits (promote t).
Proof.
  intros H. apply ity_ok_bits in H. unfold promote.
  destruct (Z.ltb_spec (bits t) 32); cbn; lia.
Qed.

Lemma promote_promote t : promote (promote t) = promote t.
Proof.
  unfold promote. destruct (bits t <? 32) eqn:E; [reflexivity|]. rewrite E. reflexivity.
Qed.

Lemma uac_refl t : uac t t = promote t.
Proof. unfold uac. rewrite Bool.eqb_reflx, Z.ltb_irrefl. reflexivity. Qed.

Lemma uac_promote_r t : uac t (promote t) = promote t.
Proof. unfold uac. rewrite promote_promote, Bool.eqb_reflx, Z.ltb_irrefl. reflexivity. Qed.

Lemma uac_promote_l t : uac (promote t) t = promote t.
Proof. unfold uac. rewrite promote_promote, Bool.eqb_reflx, Z.ltb_irrefl. reflexivity. Qed.

Lemma uac_pp t : uac (promote t) (promote t) = promote t.
Proof. rewrite uac_refl, promote_promote. reflexivity. Qed.

Lemma uac_ok t1 t2 : ity_ok t1 = true -> ity_ok t2 = true -> ity_ok (uac t1 t2) = true.
Proof.
  intros H1 H2. apply promote_ok in H1, H2. unfold uac.
  repeat match goal with |- context [if ?b then _ else _] => destruct b end; auto.
Qed.

Lemma uac_bits t1 t2 : ity_ok t1 = true -> ity_ok t2 = true ->
  bits t1 <= bits (uac t1 t2) /\ bits t2 <= bits (uac t1 t2) /\ 32 <= bits (uac t1 t2).
Proof.
  intros H1 H2. apply promote_bits in H1, H2. unfold uac.
  destruct (Bool.eqb (sgn (promote t1)) (sgn (promote t2))).
  - destruct (Z.ltb_spec (bits (promote t1)) (bits (promote t2))); lia.
  - destruct (sgn (promote t1));
    match goal with |- context [if ?a <=? ?b then _ else _] => destruct (Z.leb_spec a b) end; lia.
Qed.

(** ** well-formed configurations *)
Lemma wf_inv c : wf c = true ->
  (bits (ct c) = 8 \/ bits (ct c) = 16 \/ bits (ct c) = 32 \/ bits (ct c) = 64)
  /\ ity_ok (ct c) = true /\ ity_ok (ci c) = true /\ 2 * bits (ct c) <= bits (ci c)
  /\ sgn (ci c) = sgn (ct c) /\ 1 <= cf c <= bits (ct c) - 1.
Proof.
  unfold wf. rewrite !andb_true_iff. intros [[[[[H1 H2] H3] H4] H5] H6].
  apply Bool.eqb_prop in H4. unfold ity_ok in *. repeat split; lia.
Qed.

(** the same without case disjunctions (keeps lia fast) *)
Lemma wf_bnd c : wf c = true ->
  8 <= bits (ct c) <= 64 /\ ity_ok (ct c) = true /\ ity_ok (ci c) = true /\ 2 * bits (ct c) <= bits (ci c)
  /\ sgn (ci c) = sgn (ct c) /\ 1 <= cf c <= bits (ct c) - 1.
Proof.
  intros H. destruct (wf_inv c H) as (Hb & Ht & Hi & Hs & Hg & Hf). repeat split; auto; lia.
Qed.

Lemma wf_ct c : wf c = true -> ity_ok (ct c) = true.
Proof. intros H. apply wf_inv in H. tauto. Qed.
Lemma wf_ci c : wf c = true -> ity_ok (ci c) = true.
Proof. intros H. apply wf_inv in H. tauto. Qed.

Lemma it_eq c : wf c = true -> it c = promote (ci c).
Proof.
  intros H. apply wf_inv in H. destruct H as (Hb & _ & Hi & Hs & Hg & _).
  apply ity_ok_bits in Hi. unfold it, uac.
  destruct c as [[b s] [b' s'] f r]. cbn [ct ci cf cr bits sgn] in *. subst s'.
  unfold promote; cbn [bits sgn].
  destruct Hb as [-> | [-> | [-> | ->]]]; destruct Hi as [-> | [-> | [-> | [-> | ->]]]];
    try lia; destruct s; reflexivity.
Qed.

Lemma valid_wrap c m : wf c = true -> valid c m = true -> wrap (ct c) m = m.
Proof. intros H V. apply wrap_id; auto using wf_ct. Qed.

Lemma valid_wrap_valid c m : wf c = true -> valid c (wrap (ct c) m) = true.
Proof. intros H. apply wrap_range; auto using wf_ct. Qed.

(** A value of the store type is unchanged by conversion to the intermediate or any promoted type *)
Lemma range_wider t t' x : ity_ok t = true -> ity_ok t' = true -> bits t <= bits t' ->
  (sgn t = sgn t' \/ (sgn t = false /\ bits t < bits t')) -> in_range t x = true -> in_range t' x = true.
Proof.
  intros H H' L S R. pose proof (ity_ok_bits t H). pose proof (ity_ok_bits t' H').
  pose proof (Z.pow_le_mono_r 2 (bits t) (bits t') ltac:(lia) L).
  pose proof (Z.pow_le_mono_r 2 (bits t - 1) (bits t' - 1) ltac:(lia) ltac:(lia)).
  pose proof (pow2_pos (bits t' - 1) ltac:(lia)).
  unfold in_range, minv, maxv in *.
  destruct S as [S | [S S2]].
  - rewrite <- S. destruct (sgn t); lia.
  - rewrite S in R. pose proof (Z.pow_le_mono_r 2 (bits t) (bits t' - 1) ltac:(lia) ltac:(lia)).
    destruct (sgn t'); lia.
Qed.

Lemma sgn_promote_wide t : 32 <= bits t -> promote t = t.
Proof. intros. unfold promote. destruct (Z.ltb_spec (bits t) 32); [lia | reflexivity]. Qed.

Lemma valid_promote c m : wf c = true -> valid c m = true -> in_range (promote (ct c)) m = true.
Proof. intros H V. apply promote_range; auto using wf_ct. Qed.

Lemma valid_ci c m : wf c = true -> valid c m = true -> in_range (ci c) m = true.
Proof.
  intros H V. destruct (wf_inv c H) as (Hb & Ht & Hi & Hs & Hg & _).
  apply (range_wider (ct c)); auto. lia.
Qed.

Lemma valid_it c m : wf c = true -> valid c m = true -> in_range (promote (ci c)) m = true.
Proof. intros H V. apply promote_range; auto using wf_ci, valid_ci. Qed.

Lemma wrap_p c m : wf c = true -> valid c m = true -> wrap (promote (ct c)) m = m.
Proof. intros; apply wrap_id; auto using promote_ok, wf_ct, valid_promote. Qed.
Lemma wrap_ci c m : wf c = true -> valid c m = true -> wrap (ci c) m = m.
Proof. intros; apply wrap_id; auto using wf_ci, valid_ci. Qed.
Lemma wrap_it c m : wf c = true -> valid c m = true -> wrap (promote (ci c)) m = m.
Proof. intros; apply wrap_id; auto using promote_ok, wf_ci, valid_it. Qed.

Lemma wrap_wrap_p t x : ity_ok t = true -> wrap t (wrap (promote t) x) = wrap t x.
Proof. intros. apply wrap_narrow; auto using promote_ok. apply promote_bits; auto. Qed.

(** Range of the store type as plain inequalities *)
Lemma valid_bounds c m : wf c = true -> valid c m = true ->
  - 2 ^ (bits (ct c) - 1) <= m < 2 ^ bits (ct c) /\ (sgn (ct c) = true -> m < 2 ^ (bits (ct c) - 1))
  /\ (sgn (ct c) = false -> 0 <= m).
Proof.
  intros H V. apply wf_ct in H. destruct (ity_ok_pow _ H) as [E P].
  unfold valid, in_range, minv, maxv in V. destruct (sgn (ct c)); repeat split; try lia; discriminate.
Qed.

Lemma arith_ok t r : ity_ok t = true -> in_range t r = true -> arith t r = Ok r.
Proof. intros H R. unfold arith. rewrite R, wrap_id by auto. destruct (sgn t); reflexivity. Qed.

(** ** qval *)
Lemma pow2p_Z f : 0 <= f -> Z.pos (pow2p f) = 2 ^ f.
Proof. intros. unfold pow2p. apply Z2Pos.id, pow2_pos; lia. Qed.

Lemma qval_le f a b : (qval f a <= qval f b)%Q <-> a <= b.
Proof. unfold qval, Qle; cbn [Qnum Qden]. split; intros; nia. Qed.
Lemma qval_lt f a b : (qval f a < qval f b)%Q <-> a < b.
Proof. unfold qval, Qlt; cbn [Qnum Qden]. split; intros; nia. Qed.
Lemma qval_eq f a b : (qval f a == qval f b)%Q <-> a = b.
Proof. unfold qval, Qeq; cbn [Qnum Qden]. split; intros; nia. Qed.
Lemma qval_plus f a b : (qval f a + qval f b == qval f (a + b))%Q.
Proof. unfold qval, Qeq, Qplus; cbn [Qnum Qden]. lia. Qed.
Lemma qval_minus f a b : (qval f a - qval f b == qval f (a - b))%Q.
Proof. unfold qval, Qeq, Qminus, Qplus, Qopp; cbn [Qnum Qden]. lia. Qed.
Lemma qval_opp f a : (- qval f a == qval f (- a))%Q.
Proof. unfold qval, Qeq, Qopp; cbn [Qnum Qden]. lia. Qed.
Lemma qval_int f n : 0 <= f -> (qval f (n * 2 ^ f) == inject_Z n)%Q.
Proof. intros. unfold qval, Qeq, inject_Z; cbn [Qnum Qden]. rewrite pow2p_Z by lia. lia. Qed.
Lemma qval_mul_int f n m : (inject_Z n * qval f m == qval f (n * m))%Q.
Proof. unfold qval, Qeq, Qmult, inject_Z; cbn [Qnum Qden]. rewrite Pos.mul_1_l. lia. Qed.
Lemma qval_sign f m : 0 <= f -> ((0 <= qval f m)%Q <-> 0 <= m) /\ ((qval f m <= 0)%Q <-> m <= 0).
Proof. intros. unfold qval, Qle; cbn [Qnum Qden]. split; split; intros; nia. Qed.

Lemma representable_iff w s f m :
  representable w s f (qval f m) <-> fits w s m.
Proof.
  split.
  - intros (m' & F & E). apply qval_eq in E. subst. exact F.
  - intros F. exists m. split; [exact F | reflexivity].
Qed.

Lemma fits_valid c m : fits (bits (ct c)) (sgn (ct c)) m <-> valid c m = true.
Proof. unfold fits, lo, hi, valid, in_range, minv, maxv. destruct (sgn (ct c)); lia. Qed.
Lemma fits_range t m : fits (bits t) (sgn t) m <-> in_range t m = true.
Proof. unfold fits, lo, hi, in_range, minv, maxv. destruct (sgn t); lia. Qed.

(** a signed common type preserves both operands *)
Lemma uac_signed t1 t2 : ity_ok t1 = true -> ity_ok t2 = true -> sgn (uac t1 t2) = true ->
  (sgn t1 = sgn (uac t1 t2) \/ (sgn t1 = false /\ bits t1 < bits (uac t1 t2))) /\
  (sgn t2 = sgn (uac t1 t2) \/ (sgn t2 = false /\ bits t2 < bits (uac t1 t2))).
Proof.
  destruct t1 as [b1 s1], t2 as [b2 s2]. intros H1 H2.
  apply ity_ok_bits in H1. apply ity_ok_bits in H2. cbn [bits] in H1, H2.
  destruct H1 as [-> | [-> | [-> | [-> | ->]]]]; destruct H2 as [-> | [-> | [-> | [-> | ->]]]];
    destruct s1, s2; cbn; intros S; try discriminate S; split; auto; right; split; auto; reflexivity.
Qed.

Lemma uac_signed_id t1 t2 x y : ity_ok t1 = true -> ity_ok t2 = true -> sgn (uac t1 t2) = true ->
  in_range t1 x = true -> in_range t2 y = true ->
  wrap (uac t1 t2) x = x /\ wrap (uac t1 t2) y = y.
Proof.
  intros H1 H2 S X Y. destruct (uac_signed _ _ H1 H2 S) as [A B].
  destruct (uac_bits _ _ H1 H2) as (B1 & B2 & _).
  pose proof (uac_ok _ _ H1 H2).
  split; (apply wrap_id; [auto|]); [apply (range_wider t1) | apply (range_wider t2)]; auto.
Qed.
