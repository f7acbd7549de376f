(** Proofs, continued: integral operands, remainder, divide, ++/--, algebraic laws, order. *)
From Coq Require Import ZArith Bool List Lia ZifyBool QArith Qabs Zquot.
From Verif Require Import Base Fixed Spec BaseLemmas SpecLemmas FixedLemmas ConvProofs ArithProofs.
Open Scope Z_scope.

Lemma is_trunc_div_int f x n r : 0 <= f -> n <> 0 ->
  is_trunc f (qval f x / inject_Z n) r <-> r = Z.quot x n.
Proof.
  intros Hf Hn. pose proof (pow2_pos f Hf) as P.
  assert (E : (qval f x / inject_Z n == (x * Z.sgn n) # (pow2p f * Z.to_pos (Z.abs n)))%Q).
  { unfold Qdiv, Qinv, qval, inject_Z, Qmult, Qeq; cbn [Qnum Qden].
    destruct n; cbn [Qnum Qden Z.sgn Z.abs Z.to_pos]; lia. }
  assert (I := is_trunc_iff f (x * Z.sgn n) (pow2p f * Z.to_pos (Z.abs n)) r Hf).
  rewrite Pos2Z.inj_mul, pow2p_pos, Z2Pos.id in I by lia.
  replace (2 ^ f * Z.abs n) with (Z.abs n * 2 ^ f) in I by lia.
  rewrite Z.quot_mul_cancel_r in I by lia.
  assert (Q : Z.quot (x * Z.sgn n) (Z.abs n) = Z.quot x n).
  { destruct n as [|p|p]; [lia| |]; cbn [Z.sgn Z.abs].
    - f_equal; lia.
    - change (Z.neg p) with (- Z.pos p). rewrite Z.quot_opp_r by lia.
      replace (x * -1) with (- x) by lia. rewrite Z.quot_opp_l by lia. reflexivity. }
  rewrite Q in I. rewrite <- I. split; apply is_trunc_Qeq; [|symmetry]; exact E.
Qed.

Lemma div_int_thm c t x n r : wf c = true -> ity_ok t = true -> valid c x = true -> in_range t n = true ->
  n <> 0 -> sgn (uac (ct c) t) = true \/ (0 <= x /\ 0 <= n) ->
  is_trunc (cf c) (qval (cf c) x / inject_Z n) r -> fits (bits (ct c)) (sgn (ct c)) r ->
  fx_div_int c t x n = Ok r.
Proof.
  intros H Ht X N N0 S T F. rewrite is_trunc_div_int in T by (auto using cf_nonneg).
  apply fits_valid in F. pose proof (wf_ct c H) as Hc. pose proof (uac_ok _ _ Hc Ht) as Hu.
  pose proof (uac_bits _ _ Hc Ht) as (B1 & B2 & _).
  unfold fx_div_int, fx_div_assign_int, c_div. set (u := uac (ct c) t) in *.
  assert (W : wrap u x = x /\ wrap u n = n /\ in_range u r = true).
  { destruct (sgn u) eqn:SU.
    - destruct (uac_signed_id _ _ x n Hc Ht SU X N) as [W1 W2]. fold u in W1, W2. repeat split; auto.
      destruct (uac_signed _ _ Hc Ht SU) as [SC _]. fold u in SC.
      apply (range_wider (ct c)); auto.
    - destruct S as [S | [S1 S2]]; [discriminate|].
      assert (R : forall t' z, ity_ok t' = true -> bits t' <= bits u -> in_range t' z = true -> 0 <= z -> in_range u z = true).
      { intros t' z H' B R0 Z0. pose proof (ity_ok_bits _ H').
        pose proof (Z.pow_le_mono_r 2 (bits t') (bits u) ltac:(zlia) ltac:(zlia)).
        destruct (ity_ok_pow _ H').
        clear X N F. unfold in_range, minv, maxv in *. rewrite SU. clear - R0 Z0 H0 H1 H2 H3. destruct (sgn t'); lia. }
      repeat split.
      + apply wrap_id; eauto.
      + apply wrap_id; eauto.
      + apply (R (ct c)); auto. rewrite T. apply Z.quot_pos; zlia. }
  destruct W as (W1 & W2 & W3). rewrite W1, W2. replace (n =? 0) with false by zlia.
  rewrite <- T. rewrite arith_ok by auto. cbn [bind]. rewrite valid_wrap; auto.
Qed.

(** ** remainder *)
Lemma quot_invalid c x y : wf c = true -> valid c x = true -> valid c y = true -> y <> 0 ->
  (sgn (ct c) = true /\ valid c (Z.quot x y) = false <-> sgn (ct c) = true /\ x = - 2 ^ (bits (ct c) - 1) /\ y = -1).
Proof.
  intros H X Y N. destruct (ity_ok_pow _ (wf_ct c H)) as [E P].
  split; intros [S A]; (split; [exact S|]).
  - unfold valid, in_range, minv, maxv in *. rewrite S in *.
    pose proof (quot_abs_le x y N).
    assert (Z.quot x y <= - 2 ^ (bits (ct c) - 1) - 1 \/ 2 ^ (bits (ct c) - 1) <= Z.quot x y) as D by lia.
    destruct (Z.eq_dec y (-1)); [split; auto; subst; change (-1) with (- (1)) in *; rewrite (Z.quot_opp_r x 1), Z.quot_1_r in * by lia; lia|].
    exfalso. destruct (Z.eq_dec y 1); [subst; rewrite Z.quot_1_r in *; lia|].
    assert (2 * Z.abs (Z.quot x y) <= Z.abs x).
    { rewrite <- Z.quot_abs by auto. pose proof (Z.quot_rem' (Z.abs x) (Z.abs y)).
      pose proof (Z.rem_bound_pos (Z.abs x) (Z.abs y) ltac:(lia) ltac:(lia)).
      pose proof (Z.quot_pos (Z.abs x) (Z.abs y) ltac:(lia) ltac:(lia)). nia. }
    lia.
  - destruct A as [-> ->]. change (-1) with (- (1)).
    rewrite Z.quot_opp_r, Z.quot_1_r by lia. unfold valid, in_range, minv, maxv. rewrite S. lia.
Qed.

Lemma rem_thm c x y : wf c = true -> valid c x = true -> valid c y = true -> y <> 0 ->
  ~ (wide_signed c = true /\ x = - 2 ^ (bits (ct c) - 1) /\ y = -1) ->
  exists m, fx_rem c x y = Ok m /\ valid c m = true /\
    (exists k, (qval (cf c) x == inject_Z k * qval (cf c) y + qval (cf c) m)%Q) /\
    (Qabs (qval (cf c) m) < Qabs (qval (cf c) y))%Q /\
    ((0 <= qval (cf c) x)%Q -> (0 <= qval (cf c) m)%Q) /\
    ((qval (cf c) x <= 0)%Q -> (qval (cf c) m <= 0)%Q).
Proof.
  intros H X Y N NO. rewrite fx_rem_eq by auto. replace (y =? 0) with false by lia.
  replace (sgn (ct c) && (32 <=? bits (ct c)) && negb (valid c (Z.quot x y))) with false.
  2:{ destruct (valid c (Z.quot x y)) eqn:V; [rewrite andb_false_r; reflexivity|].
      unfold wide_signed in NO. destruct (sgn (ct c)) eqn:S; [|reflexivity].
      destruct (32 <=? bits (ct c)); [|reflexivity].
      exfalso. apply NO. split; [reflexivity|].
      destruct (quot_invalid c x y H X Y N) as [QI _]. destruct (QI (conj S V)) as (_ & A). exact A. }
  exists (Z.rem x y). split; [reflexivity|].
  pose proof (Z.quot_rem' x y) as QR. pose proof (Z.rem_bound_abs x y N) as RB.
  pose proof (cf_nonneg c H) as Hf.
  assert (P1 : 0 <= x -> 0 <= Z.rem x y) by (intros; apply Z.rem_nonneg; auto).
  assert (P2 : x <= 0 -> Z.rem x y <= 0) by (intros; apply Z.rem_nonpos; auto).
  destruct (qval_sign (cf c) x Hf) as [S1 S2]. destruct (qval_sign (cf c) (Z.rem x y) Hf) as [S3 S4].
  repeat split.
  - destruct (valid_bounds c x H X) as (X1 & X2 & X3).
    destruct (valid_bounds c y H Y) as (Y1 & Y2 & Y3).
    unfold valid, in_range, minv, maxv in *. destruct (sgn (ct c)).
    + lia.
    + specialize (X3 eq_refl). specialize (P1 X3). lia.
  - exists (Z.quot x y). rewrite qval_mul_int, qval_plus. apply qval_eq. lia.
  - unfold Qabs, qval, Qlt; cbn [Qnum Qden]. nia.
  - intros Q. apply S3. auto. apply P1. apply S1. auto.
  - intros Q. apply S4. apply P2. apply S2. auto.
Qed.

Lemma rem_ub_iff c x y : wf c = true -> valid c x = true -> valid c y = true ->
  (fx_rem c x y = UB <->
   y = 0 \/ (wide_signed c = true /\ x = - 2 ^ (bits (ct c) - 1) /\ y = -1)).
Proof.
  intros H X Y. split.
  - intros U. destruct (Z.eq_dec y 0); [auto|]. right.
    destruct (Z.eq_dec x (- 2 ^ (bits (ct c) - 1))); destruct (Z.eq_dec y (-1));
    destruct (wide_signed c) eqn:S; auto;
    (destruct (rem_thm c x y H X Y) as (m & E & _); [auto| |congruence]); intros (? & ? & ?); congruence.
  - intros [-> | (S & -> & ->)]; rewrite fx_rem_eq by auto.
    + reflexivity.
    + change (-1 =? 0) with false. unfold wide_signed in S. rewrite S.
      assert (V : valid c (Z.quot (- 2 ^ (bits (ct c) - 1)) (-1)) = false).
      { assert (SG : sgn (ct c) = true) by (destruct (sgn (ct c)); auto).
        apply (quot_invalid c (- 2 ^ (bits (ct c) - 1)) (-1) H X Y ltac:(lia)). auto. }
      rewrite V. reflexivity.
Qed.

(** ** divide / divide_by *)
Lemma c_eq_zero t n : ity_ok t = true -> in_range t n = true -> c_eq t int32 n 0 = (n =? 0).
Proof.
  intros H N. unfold c_eq. rewrite uac_i32' by auto. rewrite wrap_id by (auto using promote_ok, promote_range).
  rewrite wrap_id; auto using promote_ok. apply in_range_small; auto using promote_ok. lia.
Qed.

Lemma no_throw c x y : wf c = true -> valid c x = true -> valid c y = true -> forall e, fx_div c x y <> Throw e.
Proof. intros. apply plain_throw, plain_fx_div. Qed.

Lemma divide_thm c x y : wf c = true -> valid c x = true -> valid c y = true ->
  (fx_divide c x y = Throw divide_by_zero <-> y = 0) /\
  (fx_divide_by c x y = Throw divide_by_zero <-> y = 0) /\
  (y <> 0 -> fx_divide c x y = fx_div c x y /\ fx_divide_by c x y = fx_div c x y).
Proof.
  intros H X Y.
  assert (E : forall z, fx_divide c x y = z <-> (if y =? 0 then Throw divide_by_zero else fx_div c x y) = z).
  { intros. unfold fx_divide. rewrite c_eq_zero by (auto using wf_ct). reflexivity. }
  assert (E2 : fx_divide_by c x y = fx_divide c x y) by reflexivity.
  rewrite E2. split; [|split].
  - rewrite E. destruct (Z.eqb_spec y 0); [tauto|]. split; [intros T|lia].
    exact (False_ind _ (no_throw c x y H X Y _ T)).
  - rewrite E. destruct (Z.eqb_spec y 0); [tauto|]. split; [intros T|lia].
    exact (False_ind _ (no_throw c x y H X Y _ T)).
  - intros N. assert (fx_divide c x y = fx_div c x y); [|auto].
    apply E. destruct (Z.eqb_spec y 0); [lia|reflexivity].
Qed.

Lemma divide_int_thm c t x n : wf c = true -> ity_ok t = true -> valid c x = true -> in_range t n = true ->
  (fx_divide_int c t x n = Throw divide_by_zero <-> n = 0) /\
  (fx_divide_by_int c t x n = Throw divide_by_zero <-> n = 0) /\
  (n <> 0 -> fx_divide_int c t x n = fx_div_int c t x n /\ fx_divide_by_int c t x n = fx_div_int c t x n).
Proof.
  intros H Ht X N. unfold fx_divide_int, fx_divide_by_int. rewrite c_eq_zero by auto.
  assert (NT : forall e, fx_div_int c t x n <> Throw e).
  { intros e. apply plain_throw. unfold fx_div_int, fx_div_assign_int. plain. }
  destruct (Z.eqb_spec n 0); [tauto|]. fold (fx_div_assign_int c t x n). fold (fx_div_int c t x n).
  repeat split; intros; try lia; try (exfalso; eapply NT; eassumption).
Qed.

(** ** increment and decrement *)
Lemma one_promoted c : wf c = true -> (wide_signed c = true -> cf c <= bits (ct c) - 2) ->
  c_shl (ct c) 1 (cf c) = Ok (2 ^ cf c) /\ in_range (promote (ct c)) (2 ^ cf c) = true.
Proof.
  intros H W. destruct (wf_bnd c H) as (B & Ht & _ & _ & _ & F).
  assert (R : in_range (promote (ct c)) (2 ^ cf c) = true).
  { destruct (Z_lt_ge_dec (bits (ct c)) 32) as [L|L].
    - unfold promote. replace (bits (ct c) <? 32) with true by lia.
      pose proof (Z.pow_lt_mono_r 2 (cf c) 31 ltac:(zlia) ltac:(zlia) ltac:(zlia)). pose proof (cf_pos c H).
      unfold in_range, minv, maxv; cbn [int32 sgn bits]. change (32 - 1) with 31. lia.
    - apply promote_range; auto. apply one_range; auto.
      intros S. apply W. unfold wide_signed. rewrite S. replace (32 <=? bits (ct c)) with true by lia. reflexivity. }
  split; auto. rewrite one_shift by auto. f_equal. apply wrap_id; auto using promote_ok.
Qed.

Lemma incdec_thm c x : wf c = true -> (wide_signed c = true -> cf c <= bits (ct c) - 2) -> valid c x = true ->
  (representable (bits (ct c)) (sgn (ct c)) (cf c) (qval (cf c) x + 1) ->
   exists m, (qval (cf c) m == qval (cf c) x + 1)%Q /\ valid c m = true /\
     fx_preinc c x = Ok (m, m) /\ fx_postinc c x = Ok (x, m)) /\
  (representable (bits (ct c)) (sgn (ct c)) (cf c) (qval (cf c) x - 1) ->
   exists m, (qval (cf c) m == qval (cf c) x - 1)%Q /\ valid c m = true /\
     fx_predec c x = Ok (m, m) /\ fx_postdec c x = Ok (x, m)).
Proof.
  intros H W X. destruct (one_promoted c H W) as [O R]. pose proof (cf_nonneg c H) as Hf.
  pose proof (promote_ok _ (wf_ct c H)) as Hp. pose proof (cf_pos c H) as PP.
  assert (Q1 : (qval (cf c) (2 ^ cf c) == 1)%Q) by (rewrite <- (Z.mul_1_l (2 ^ cf c)); apply qval_int; auto).
  split; intros (m & F & E).
  - assert (m = x + 2 ^ cf c) by (apply (qval_eq (cf c)); rewrite E, <- qval_plus, Q1; reflexivity).
    apply fits_valid in F.
    assert (A : c_add (ct c) (promote (ct c)) x (2 ^ cf c) = Ok m).
    { unfold c_add. rewrite uac_promote_r, wrap_p, (wrap_id _ (2 ^ cf c)) by auto. subst m.
      apply arith_ok; auto using valid_promote. }
    exists m. split; [exact E|]. split; [exact F|].
    unfold fx_preinc, fx_postinc. rewrite O. cbn [bind]. rewrite A. cbn [bind]. rewrite valid_wrap by auto. auto.
  - assert (m = x - 2 ^ cf c) by (apply (qval_eq (cf c)); rewrite E, <- qval_minus, Q1; reflexivity).
    apply fits_valid in F.
    assert (A : c_sub (ct c) (promote (ct c)) x (2 ^ cf c) = Ok m).
    { unfold c_sub. rewrite uac_promote_r, wrap_p, (wrap_id _ (2 ^ cf c)) by auto. subst m.
      apply arith_ok; auto using valid_promote. }
    exists m. split; [exact E|]. split; [exact F|].
    unfold fx_predec, fx_postdec. rewrite O. cbn [bind]. rewrite A. cbn [bind]. rewrite valid_wrap by auto. auto.
Qed.

(** ** algebraic laws *)
Lemma valid_zero c : wf c = true -> valid c 0 = true.
Proof.
  intros H. destruct (ity_ok_pow _ (wf_ct c H)). unfold valid, in_range, minv, maxv.
  destruct (sgn (ct c)); lia.
Qed.

Lemma ovf_ok c r m : wf c = true -> ovf c r = Ok m -> valid c m = true /\ m = wrap (ct c) r
  /\ (wide_signed c = true -> m = r).
Proof.
  intros H. unfold ovf, wide_signed. destruct (sgn (ct c) && (32 <=? bits (ct c))).
  - destruct (valid c r) eqn:V; [|discriminate]. intros E. injection E as <-.
    rewrite valid_wrap by auto. auto.
  - intros E. injection E as <-. split; [apply valid_wrap_valid; auto|]. split; [reflexivity|]. discriminate.
Qed.

Lemma ovf_wrap_l c r z : wf c = true -> wide_signed c = false -> ovf c (wrap (ct c) r + z) = ovf c (r + z).
Proof.
  intros H W. unfold ovf. fold (wide_signed c). rewrite W. rewrite wrap_add_l by (auto using wf_ct). reflexivity.
Qed.

Lemma add_laws c x y z : wf c = true -> valid c x = true -> valid c y = true -> valid c z = true ->
  fx_add c x y = fx_add c y x /\
  fx_add c x 0 = Ok x /\
  (forall a b, fx_add c x y = Ok a -> fx_add c y z = Ok b -> fx_add c a z = fx_add c x b) /\
  (forall n, fx_neg c x = Ok n -> fx_add c x n = Ok 0) /\
  (forall n, fx_neg c y = Ok n -> fx_sub c x y = fx_add c x n).
Proof.
  intros H X Y Z. pose proof (valid_zero c H) as V0. pose proof (wf_ct c H) as Ht.
  rewrite !fx_add_eq, fx_sub_eq, !fx_neg_eq by auto. repeat split.
  - f_equal. lia.
  - rewrite Z.add_0_r. apply ovf_valid; auto.
  - intros a b A B. apply ovf_ok in A; auto. apply ovf_ok in B; auto.
    destruct A as (A1 & A2 & A3), B as (B1 & B2 & B3). rewrite !fx_add_eq by auto.
    destruct (wide_signed c) eqn:W.
    + rewrite A3, B3 by auto. f_equal. lia.
    + subst a b. rewrite (Z.add_comm x (wrap _ _)), !(ovf_wrap_l c) by auto. f_equal. lia.
  - intros n A. apply ovf_ok in A; auto. destruct A as (A1 & A2 & A3). rewrite fx_add_eq by auto.
    destruct (wide_signed c) eqn:W.
    + rewrite A3, Z.add_opp_diag_r by auto. apply ovf_valid; auto.
    + subst n. rewrite Z.add_comm, (ovf_wrap_l c) by auto. rewrite Z.add_opp_diag_l. apply ovf_valid; auto.
  - intros n A. apply ovf_ok in A; auto. destruct A as (A1 & A2 & A3). rewrite fx_add_eq by auto.
    destruct (wide_signed c) eqn:W.
    + rewrite A3 by auto. f_equal; lia.
    + subst n. rewrite (Z.add_comm x), (ovf_wrap_l c) by auto. f_equal; lia.
Qed.

Lemma one_valid c : wf c = true -> (sgn (ct c) = true -> cf c <= bits (ct c) - 2) ->
  fx_of_int c 1 = Ok (2 ^ cf c) /\ valid c (2 ^ cf c) = true.
Proof.
  intros H W. pose proof (one_range c H W) as V. rewrite fx_of_int_eq, Z.mul_1_l by auto.
  rewrite wrap_id by (auto using wf_ct). auto.
Qed.

Lemma mul_comm_zero c x y : wf c = true -> cr c = false -> valid c x = true -> valid c y = true ->
  fx_mul c x y = fx_mul c y x /\ fx_mul c x 0 = Ok 0.
Proof.
  intros H R X Y. pose proof (valid_zero c H) as V0. rewrite !fx_mul_eq by auto. split.
  - do 3 f_equal. lia.
  - rewrite Z.mul_0_r. pose proof (cf_pos c H). rewrite Z.div_0_l by lia. rewrite valid_wrap; auto.
Qed.

Lemma one_laws c x one : wf c = true -> cr c = false -> (sgn (ct c) = true -> cf c <= bits (ct c) - 2) ->
  valid c x = true -> fx_of_int c 1 = Ok one ->
  fx_mul c x one = Ok x /\ fx_div c x one = Ok x /\ (x <> 0 -> fx_div c x x = Ok one).
Proof.
  intros H R W X O. destruct (one_valid c H W) as [O' V]. rewrite O' in O. injection O as <-.
  pose proof (cf_pos c H) as P.
  rewrite fx_mul_eq, fx_div_eq by (auto; lia). rewrite Z.div_mul, Z.quot_mul, valid_wrap by (auto; lia).
  repeat split; auto. intros N. rewrite fx_div_eq by auto.
  rewrite Z.mul_comm, Z.quot_mul by auto. rewrite valid_wrap by auto. reflexivity.
Qed.

(** distributivity up to one ulp, as long as nothing wraps *)
Lemma distrib c x y z s p q pq r : wf c = true -> cr c = false ->
  valid c x = true -> valid c y = true -> valid c z = true ->
  s = y + z -> valid c s = true ->
  is_floor (cf c) (qval (cf c) x * qval (cf c) y) p -> valid c p = true ->
  is_floor (cf c) (qval (cf c) x * qval (cf c) z) q -> valid c q = true ->
  is_floor (cf c) (qval (cf c) x * qval (cf c) s) r -> valid c r = true ->
  pq = p + q -> valid c pq = true ->
  fx_add c y z = Ok s /\ fx_mul c x y = Ok p /\ fx_mul c x z = Ok q /\
  fx_mul c x s = Ok r /\ fx_add c p q = Ok pq /\ (r = pq \/ r = pq + 1).
Proof.
  intros H R X Y Z Es S Fp P Fq Q Fr Vr Epq VPQ. pose proof (cf_nonneg c H) as Hf. pose proof (cf_pos c H) as C.
  rewrite is_floor_mul in Fp, Fq, Fr by auto.
  rewrite !fx_add_eq, !fx_mul_eq by auto. rewrite <- Fp, <- Fq, <- Fr. rewrite !valid_wrap by auto.
  rewrite <- Es, <- Epq, !ovf_valid by auto. repeat split.
  subst p q r pq s. rewrite Z.mul_add_distr_l.
  pose proof (Z.div_mod (x * y) (2 ^ cf c) ltac:(zlia)). pose proof (Z.mod_pos_bound (x * y) (2 ^ cf c) C).
  pose proof (Z.div_mod (x * z) (2 ^ cf c) ltac:(zlia)). pose proof (Z.mod_pos_bound (x * z) (2 ^ cf c) C).
  remember (x * y / 2 ^ cf c) as a. remember (x * z / 2 ^ cf c) as b.
  remember (x * y mod 2 ^ cf c) as a'. remember (x * z mod 2 ^ cf c) as b'.
  destruct (Z_lt_ge_dec (a' + b') (2 ^ cf c)).
  - left. symmetry. apply Z.div_unique_pos with (r := a' + b'); zlia.
  - right. symmetry. apply Z.div_unique_pos with (r := a' + b' - 2 ^ cf c); zlia.
Qed.

(** associativity of * up to (|x|+|z|) + 1 ulps, measured at the scale of the values *)
Lemma mul_assoc_err c x y z p q l r : wf c = true -> cr c = false ->
  valid c x = true -> valid c y = true -> valid c z = true ->
  is_floor (cf c) (qval (cf c) x * qval (cf c) y) p -> valid c p = true ->
  is_floor (cf c) (qval (cf c) y * qval (cf c) z) q -> valid c q = true ->
  is_floor (cf c) (qval (cf c) p * qval (cf c) z) l -> valid c l = true ->
  is_floor (cf c) (qval (cf c) x * qval (cf c) q) r -> valid c r = true ->
  fx_mul c x y = Ok p /\ fx_mul c p z = Ok l /\ fx_mul c y z = Ok q /\ fx_mul c x q = Ok r /\
  (Qabs (qval (cf c) l - qval (cf c) r) <=
     qval (cf c) 1 * (Qabs (qval (cf c) x) + Qabs (qval (cf c) z) + 1))%Q.
Proof.
  intros H R X Y Z Fp P Fq Q Fl L Fr Vr. pose proof (cf_nonneg c H) as Hf. pose proof (cf_pos c H) as C.
  rewrite is_floor_mul in Fp, Fq, Fl, Fr by auto.
  rewrite !fx_mul_eq by auto. rewrite <- Fp, <- Fq, <- Fl, <- Fr. rewrite !valid_wrap by auto.
  repeat split. rewrite qval_minus.
  unfold Qabs, qval, Qle, Qmult, Qplus; cbn [Qnum Qden].
  rewrite !Pos2Z.inj_mul, !pow2p_pos by auto.
  pose proof (Z.div_mod (x * y) (2 ^ cf c) ltac:(zlia)) as D1. pose proof (Z.mod_pos_bound (x * y) (2 ^ cf c) C) as B1.
  pose proof (Z.div_mod (y * z) (2 ^ cf c) ltac:(zlia)) as D2. pose proof (Z.mod_pos_bound (y * z) (2 ^ cf c) C) as B2.
  pose proof (Z.div_mod (p * z) (2 ^ cf c) ltac:(zlia)) as D3. pose proof (Z.mod_pos_bound (p * z) (2 ^ cf c) C) as B3.
  pose proof (Z.div_mod (x * q) (2 ^ cf c) ltac:(zlia)) as D4. pose proof (Z.mod_pos_bound (x * q) (2 ^ cf c) C) as B4.
  rewrite <- Fp in D1. rewrite <- Fq in D2. rewrite <- Fl in D3. rewrite <- Fr in D4.
  remember (2 ^ cf c) as A.
  remember (x * y mod A) as m1. remember (y * z mod A) as m2. remember (p * z mod A) as m3. remember (x * q mod A) as m4.
  cb. clear Heqm1 Heqm2 Heqm3 Heqm4 Fp Fq Fl Fr HeqA Hf.
  assert (EQ : A * (A * (l - r)) = x * m2 - z * m1 + A * (m4 - m3)).
  { replace (A * (l - r)) with (p * z - m3 - (x * q - m4)) by lia.
    replace (A * (p * z - m3 - (x * q - m4))) with ((A * p) * z - A * m3 - x * (A * q) + A * m4) by ring.
    replace (A * p) with (x * y - m1) by lia. replace (A * q) with (y * z - m2) by lia. ring. }
  assert (E1 : Z.abs (x * m2) <= Z.abs x * A).
  { rewrite Z.abs_mul, (Z.abs_eq m2) by lia. apply Z.mul_le_mono_nonneg_l; lia. }
  assert (E2 : Z.abs (z * m1) <= Z.abs z * A).
  { rewrite Z.abs_mul, (Z.abs_eq m1) by lia. apply Z.mul_le_mono_nonneg_l; lia. }
  assert (E3 : Z.abs (A * (m4 - m3)) <= A * A).
  { rewrite Z.abs_mul, (Z.abs_eq A) by lia. apply Z.mul_le_mono_nonneg_l; lia. }
  assert (K : A * (Z.abs (l - r) * A) <= A * (Z.abs x + Z.abs z + A)).
  { replace (A * (Z.abs (l - r) * A)) with (Z.abs (A * (A * (l - r)))).
    - rewrite EQ, !Z.mul_add_distr_l. lia.
    - rewrite !Z.abs_mul, (Z.abs_eq A) by lia. lia. }
  apply Z.mul_le_mono_pos_l in K; [|lia].
  clear - K C. remember (Z.abs (l - r)) as d. remember (Z.abs x + Z.abs z) as w.
  replace (d * (A * (A * A * 1))) with ((d * A) * (A * A)) by ring.
  replace (1 * ((Z.abs x * A + Z.abs z * A) * 1 + 1 * (A * A)) * A) with ((w + A) * (A * A)) by (subst w; ring).
  apply Z.mul_le_mono_nonneg_r; [nia|exact K].
Qed.
(** ** order *)
Lemma cmp_thm c x y : wf c = true -> valid c x = true -> valid c y = true ->
  fx_cmp c x y = Qcompare (qval (cf c) x) (qval (cf c) y).
Proof.
  intros H X Y. unfold fx_cmp. rewrite uac_refl, !wrap_p by auto.
  unfold Qcompare, qval; cbn [Qnum Qden]. apply Zmult_compare_compat_r. reflexivity.
Qed.

Lemma order_thm c x y : wf c = true -> valid c x = true -> valid c y = true ->
  (fx_eq c x y = true <-> (qval (cf c) x == qval (cf c) y)%Q) /\
  (fx_lt c x y = true <-> (qval (cf c) x < qval (cf c) y)%Q) /\
  (fx_le c x y = true <-> (qval (cf c) x <= qval (cf c) y)%Q) /\
  (fx_gt c x y = true <-> (qval (cf c) y < qval (cf c) x)%Q) /\
  (fx_ge c x y = true <-> (qval (cf c) y <= qval (cf c) x)%Q).
Proof.
  intros H X Y. unfold fx_eq, fx_lt, fx_le, fx_gt, fx_ge, c_eq, fx_cmp.
  rewrite uac_refl, !wrap_p by auto. rewrite qval_eq, !qval_lt, !qval_le.
  destruct (Z.compare_spec x y); repeat split; intros; try lia; try discriminate; auto.
Qed.

Lemma add_mono c x y z a b : wf c = true -> wide_signed c = true ->
  valid c x = true -> valid c y = true -> valid c z = true ->
  fx_le c x y = true -> fx_add c x z = Ok a -> fx_add c y z = Ok b -> fx_le c a b = true.
Proof.
  intros H W X Y Z L A B. destruct (order_thm c x y H X Y) as (_ & _ & LE & _).
  apply LE in L. rewrite qval_le in L. rewrite fx_add_eq in A, B by auto.
  apply ovf_ok in A; auto. apply ovf_ok in B; auto. destruct A as (VA & _ & A), B as (VB & _ & B).
  destruct (order_thm c a b H VA VB) as (_ & _ & LE2 & _). apply LE2. rewrite qval_le.
  rewrite (A W), (B W). lia.
Qed.
