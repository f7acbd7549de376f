(** Proofs about the arithmetic, comparison and inspection operators (C09-C24). *)
From Coq Require Import ZArith Bool List Lia ZifyBool QArith Qabs Zquot.
From Verif Require Import Base Fixed Spec BaseLemmas SpecLemmas FixedLemmas ConvProofs.
Open Scope Z_scope.

Definition wide_signed (c : cfg) : bool := sgn (ct c) && (32 <=? bits (ct c)).

Lemma ovf_spec c r : wf c = true ->
  (fits (bits (ct c)) (sgn (ct c)) r -> ovf c r = Ok r) /\
  (~ fits (bits (ct c)) (sgn (ct c)) r ->
     if wide_signed c then ovf c r = UB
     else exists m, ovf c r = Ok m /\ valid c m = true /\ cong (bits (ct c)) m r).
Proof.
  intros H. rewrite fits_valid. split.
  - apply ovf_valid; auto.
  - intros N. unfold ovf, wide_signed. destruct (sgn (ct c) && (32 <=? bits (ct c))).
    + destruct (valid c r); congruence.
    + eexists. split; [reflexivity|]. split; [apply valid_wrap_valid; auto | apply wrap_cong, wf_ct; auto].
Qed.

(** generic additive theorem: any operation whose closed form is [ovf c r] *)
Lemma additive c r (q : Q) (o : res Z) : wf c = true -> o = ovf c r -> (q == qval (cf c) r)%Q ->
  (representable (bits (ct c)) (sgn (ct c)) (cf c) q ->
     exists m, o = Ok m /\ valid c m = true /\ (qval (cf c) m == q)%Q) /\
  (~ representable (bits (ct c)) (sgn (ct c)) (cf c) q ->
     if wide_signed c then o = UB
     else exists m, o = Ok m /\ valid c m = true /\ cong (bits (ct c)) m r).
Proof.
  intros H -> E. destruct (ovf_spec c r H) as [S1 S2].
  assert (RI : representable (bits (ct c)) (sgn (ct c)) (cf c) q <-> fits (bits (ct c)) (sgn (ct c)) r).
  { rewrite <- (representable_iff _ _ (cf c)). unfold representable.
    split; intros (m & F & E'); exists m; split; auto; [rewrite <- E | rewrite E]; auto. }
  rewrite RI. split.
  - intros F. exists r. split; [auto|]. split; [apply fits_valid; auto | symmetry; auto].
  - exact S2.
Qed.

Lemma add_thm c x y : wf c = true -> valid c x = true -> valid c y = true ->
  (representable (bits (ct c)) (sgn (ct c)) (cf c) (qval (cf c) x + qval (cf c) y) ->
     exists m, fx_add c x y = Ok m /\ valid c m = true /\ (qval (cf c) m == qval (cf c) x + qval (cf c) y)%Q) /\
  (~ representable (bits (ct c)) (sgn (ct c)) (cf c) (qval (cf c) x + qval (cf c) y) ->
     if wide_signed c then fx_add c x y = UB
     else exists m, fx_add c x y = Ok m /\ valid c m = true /\ cong (bits (ct c)) m (x + y)).
Proof. intros. apply additive; auto. apply fx_add_eq; auto. apply qval_plus. Qed.

Lemma sub_thm c x y : wf c = true -> valid c x = true -> valid c y = true ->
  (representable (bits (ct c)) (sgn (ct c)) (cf c) (qval (cf c) x - qval (cf c) y) ->
     exists m, fx_sub c x y = Ok m /\ valid c m = true /\ (qval (cf c) m == qval (cf c) x - qval (cf c) y)%Q) /\
  (~ representable (bits (ct c)) (sgn (ct c)) (cf c) (qval (cf c) x - qval (cf c) y) ->
     if wide_signed c then fx_sub c x y = UB
     else exists m, fx_sub c x y = Ok m /\ valid c m = true /\ cong (bits (ct c)) m (x - y)).
Proof. intros. apply additive; auto. apply fx_sub_eq; auto. apply qval_minus. Qed.

Lemma neg_thm c x : wf c = true -> valid c x = true ->
  (representable (bits (ct c)) (sgn (ct c)) (cf c) (- qval (cf c) x) ->
     exists m, fx_neg c x = Ok m /\ valid c m = true /\ (qval (cf c) m == - qval (cf c) x)%Q) /\
  (~ representable (bits (ct c)) (sgn (ct c)) (cf c) (- qval (cf c) x) ->
     if wide_signed c then fx_neg c x = UB
     else exists m, fx_neg c x = Ok m /\ valid c m = true /\ cong (bits (ct c)) m (- x)).
Proof. intros. apply additive; auto. apply fx_neg_eq; auto. apply qval_opp. Qed.

(** ** mixed integer addition *)
Lemma shl_wide c n : wf c = true ->
  32 <= bits (ct c) \/ representable (bits (ct c)) (sgn (ct c)) (cf c) (inject_Z n) ->
  c_shl (ct c) (wrap (ct c) n) (cf c) = Ok (wrap (ct c) (n * 2 ^ cf c)).
Proof.
  intros H D. pose proof (wf_ct c H) as Ht. destruct (wf_bnd c H) as (_ & _ & _ & _ & _ & F).
  rewrite c_shl_ct by (auto; lia). f_equal.
  destruct D as [L | (m & F' & E)].
  - rewrite sgn_promote_wide by lia. apply wrap_mul_l; auto.
  - assert (m = n * 2 ^ cf c).
    { apply (qval_eq (cf c)). rewrite E, qval_int by lia. reflexivity. }
    subst m. apply fits_valid in F'. rewrite (wrap_id (ct c) (n * _)) by auto.
    pose proof (cf_pos c H).
    assert (valid c n = true).
    { unfold valid, in_range, minv, maxv in *. destruct (ity_ok_pow _ Ht). destruct (sgn (ct c)); nia. }
    rewrite (wrap_id (ct c) n) by auto. apply wrap_p; auto.
Qed.

Lemma c_add_promote c x v : c_add (ct c) (promote (ct c)) x v = c_add (ct c) (ct c) x v.
Proof. unfold c_add. rewrite uac_promote_r, uac_refl. reflexivity. Qed.
Lemma c_sub_promote c x v : c_sub (ct c) (promote (ct c)) x v = c_sub (ct c) (ct c) x v.
Proof. unfold c_sub. rewrite uac_promote_r, uac_refl. reflexivity. Qed.

Lemma mixed_thm c t x n : wf c = true ->
  32 <= bits (ct c) \/ representable (bits (ct c)) (sgn (ct c)) (cf c) (inject_Z n) ->
  fx_add_int c t x n = (let* v := fx_of_int c n in fx_add c x v) /\
  int_add_fx c t n x = (let* v := fx_of_int c n in fx_add c x v) /\
  fx_sub_int c t x n = (let* v := fx_of_int c n in fx_sub c x v) /\
  int_sub_fx c t n x = (let* v := fx_of_int c n in fx_sub c v x).
Proof.
  intros H D. unfold fx_add_int, int_add_fx, fx_sub_int, int_sub_fx, fx_add_assign_int, fx_sub_assign_int.
  rewrite shl_wide by auto. rewrite fx_of_int_eq by auto. cbn [bind].
  rewrite c_add_promote, c_sub_promote. repeat split.
Qed.

(** ** multiplication and division *)
Lemma mul_thm c x y r : wf c = true -> cr c = false -> valid c x = true -> valid c y = true ->
  is_floor (cf c) (qval (cf c) x * qval (cf c) y) r ->
  exists m, fx_mul c x y = Ok m /\ valid c m = true /\ cong (bits (ct c)) m r
            /\ (fits (bits (ct c)) (sgn (ct c)) r -> m = r).
Proof.
  intros H R X Y F. rewrite is_floor_mul in F by (auto using cf_nonneg).
  rewrite fx_mul_eq, <- F by auto. eexists. split; [reflexivity|]. repeat split.
  - apply valid_wrap_valid; auto.
  - apply wrap_cong, wf_ct; auto.
  - intros G. apply fits_range in G. apply wrap_id; auto using wf_ct.
Qed.

Lemma div_thm c x y r : wf c = true -> cr c = false -> valid c x = true -> valid c y = true -> y <> 0 ->
  is_trunc (cf c) (qval (cf c) x / qval (cf c) y) r ->
  exists m, fx_div c x y = Ok m /\ valid c m = true /\ cong (bits (ct c)) m r
            /\ (fits (bits (ct c)) (sgn (ct c)) r -> m = r).
Proof.
  intros H R X Y N F. rewrite is_trunc_div in F by (auto using cf_nonneg).
  rewrite fx_div_eq, <- F by auto. eexists. split; [reflexivity|]. repeat split.
  - apply valid_wrap_valid; auto.
  - apply wrap_cong, wf_ct; auto.
  - intros G. apply fits_range in G. apply wrap_id; auto using wf_ct.
Qed.

Lemma div_ub_iff c x y : wf c = true -> cr c = false -> valid c x = true -> valid c y = true ->
  (fx_div c x y = UB <-> y = 0).
Proof.
  intros H R X Y. split.
  - intros U. destruct (Z.eq_dec y 0); auto. rewrite fx_div_eq in U by auto. discriminate.
  - apply fx_div_zero; auto.
Qed.

(** rounding mode: the result is within one ulp of TWICE the exact product *)
Lemma mul_round_thm c x y : wf c = true -> cr c = true -> valid c x = true -> valid c y = true ->
  exists m r, fx_mul c x y = Ok m /\ valid c m = true /\ cong (bits (ct c)) m r /\
    (Qabs (qval (cf c) r - 2 * (qval (cf c) x * qval (cf c) y)) <= qval (cf c) 1)%Q.
Proof.
  intros H R X Y. rewrite fx_mul_round_eq by auto. cbv zeta.
  set (v := Z.quot (x * y) (2 ^ (cf c - 1))).
  exists (wrap (ct c) (v + Z.rem v 2)), (v + Z.rem v 2). split; [reflexivity|]. repeat split.
  - apply valid_wrap_valid; auto.
  - apply wrap_cong, wf_ct; auto.
  - destruct (wf_bnd c H) as (_ & _ & _ & _ & _ & F).
    pose proof (pow2_pos (cf c - 1) ltac:(zlia)) as P.
    assert (E : 2 ^ cf c = 2 * 2 ^ (cf c - 1)).
    { replace (cf c) with (cf c - 1 + 1) at 1 by lia. rewrite Z.pow_add_r by zlia. zlia. }
    apply Qabs_Qle_condition.
    unfold qval, Qle, Qminus, Qplus, Qopp, Qmult; cbn [Qnum Qden].
    rewrite !Pos2Z.inj_mul, !pow2p_pos by zlia. rewrite E.
    remember (2 ^ (cf c - 1)) as A. set (s := v + Z.rem v 2).
    pose proof (Z.quot_rem' (x * y) A) as QR. fold v in QR.
    pose proof (Z.rem_bound_abs (x * y) A ltac:(zlia)) as RB.
    assert (B : - A <= s * A - x * y <= A).
    { unfold s. pose proof (Z.rem_bound_abs v 2 ltac:(zlia)) as RV.
      destruct (Z_le_gt_dec 0 (x * y)).
      - pose proof (Z.rem_bound_pos (x * y) A ltac:(zlia) ltac:(zlia)).
        pose proof (Z.quot_pos (x * y) A ltac:(zlia) ltac:(zlia)) as QP. fold v in QP.
        pose proof (Z.rem_bound_pos v 2 ltac:(zlia) ltac:(zlia)).
        assert (Z.rem v 2 = 0 \/ Z.rem v 2 = 1) as [RR|RR] by zlia; rewrite RR; znia.
      - pose proof (Z.rem_nonpos (x * y) A ltac:(zlia) ltac:(zlia)).
        pose proof (quot_between (x * y) A P) as QP. fold v in QP.
        assert (V0 : v <= 0) by zlia.
        pose proof (Z.rem_nonpos v 2 ltac:(zlia) ltac:(zlia)).
        assert (Z.rem v 2 = 0 \/ Z.rem v 2 = - (1)) as [RR|RR] by zlia; rewrite RR; znia. }
    clear - B P. clearbody s. clear v. split; nia.
Qed.

(** ** operations with an integral operand *)
Lemma mul_int_thm c t x n : wf c = true -> ity_ok t = true -> valid c x = true -> in_range t n = true ->
  representable (bits (ct c)) (sgn (ct c)) (cf c) (inject_Z n * qval (cf c) x) ->
  exists m, fx_mul_int c t x n = Ok m /\ int_mul_fx c t n x = Ok m /\ valid c m = true
            /\ (qval (cf c) m == inject_Z n * qval (cf c) x)%Q.
Proof.
  intros H Ht X N (m & F & E). rewrite qval_mul_int in E. apply qval_eq in E. subst m.
  apply fits_valid in F. exists (n * x). rewrite qval_mul_int.
  pose proof (wf_ct c H) as Hc. pose proof (uac_ok _ _ Hc Ht) as Hu.
  pose proof (uac_bits _ _ Hc Ht) as (B1 & B2 & B3).
  assert (G : fx_mul_int c t x n = Ok (n * x)).
  { unfold fx_mul_int, fx_mul_assign_int, c_mul. set (u := uac (ct c) t) in *.
    assert (K : exists p, arith u (wrap u x * wrap u n) = Ok p /\ wrap (ct c) p = wrap (ct c) (x * n)).
    { unfold arith. destruct (sgn u) eqn:S.
      - destruct (uac_signed_id _ _ x n Hc Ht S X N) as [W1 W2].
        fold u in W1, W2. rewrite W1, W2.
        destruct (uac_signed _ _ Hc Ht S) as [SC _]. fold u in SC.
        replace (in_range u (x * n)) with true; [eauto|].
        symmetry. rewrite Z.mul_comm. apply (range_wider (ct c)); auto.
      - eexists; split; [reflexivity|]. rewrite wrap_narrow by auto.
        destruct (wrap_cong u x Hu) as [j ->]. destruct (wrap_cong u n Hu) as [k ->].
        assert (EB : 2 ^ bits u = 2 ^ (bits u - bits (ct c)) * 2 ^ bits (ct c)).
        { rewrite <- Z.pow_add_r; [f_equal; zlia|zlia|]. apply ity_ok_bits in Hc. zlia. }
        rewrite EB. set (W := 2 ^ (bits u - bits (ct c))).
        apply (wrap_cong_eq _ _ _ (j * W * n + x * k * W + j * W * k * W * 2 ^ bits (ct c)) Hc). ring. }
    destruct K as (p & -> & K). cbn [bind]. rewrite K, Z.mul_comm.
    f_equal. apply valid_wrap; auto. }
  split; [exact G|]. split; [exact G|]. split; [exact F|reflexivity].
Qed.
