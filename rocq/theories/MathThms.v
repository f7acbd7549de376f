(** Statement-level forms of the results of MathProofs.v and SqrtProofs.v. *)
From Coq Require Import ZArith Bool List Lia ZifyBool QArith Qabs Zquot.
From Verif Require Import Base Fixed Math Spec BaseLemmas SpecLemmas FixedLemmas CLemmas ArithProofs MathProofs SqrtProofs PowProofs.
Open Scope Z_scope.

Lemma qval_int f n : 0 <= f -> (qval f (n * 2 ^ f) == inject_Z n)%Q.
Proof. intros. unfold qval, Qeq, inject_Z; cbn [Qnum Qden]. rewrite pow2p_pos by auto. lia. Qed.

(** rationals with a common denominator *)
Lemma qval_le f x y : (qval f x <= qval f y)%Q <-> x <= y.
Proof. unfold qval, Qle; cbn [Qnum Qden]. pose proof (Pos2Z.is_pos (pow2p f)). nia. Qed.
Lemma qval_lt f x y : (qval f x < qval f y)%Q <-> x < y.
Proof. unfold qval, Qlt; cbn [Qnum Qden]. pose proof (Pos2Z.is_pos (pow2p f)). nia. Qed.
Lemma qval_eq f x y : (qval f x == qval f y)%Q <-> x = y.
Proof. unfold qval, Qeq; cbn [Qnum Qden]. pose proof (Pos2Z.is_pos (pow2p f)). split; [nia|intros ->; reflexivity]. Qed.
Lemma qval_add f x y : (qval f x + qval f y == qval f (x + y))%Q.
Proof. unfold qval, Qeq, Qplus; cbn [Qnum Qden]. rewrite Pos2Z.inj_mul. ring. Qed.
Lemma qval_sub f x y : (qval f x - qval f y == qval f (x - y))%Q.
Proof. unfold Qminus, qval, Qeq, Qplus, Qopp; cbn [Qnum Qden]. rewrite Pos2Z.inj_mul. ring. Qed.
Lemma qval_0 f : (qval f 0 == 0)%Q. Proof. reflexivity. Qed.
Lemma qval_sgn f x : (0 <= qval f x)%Q <-> 0 <= x.
Proof. rewrite <- (qval_0 f). apply qval_le. Qed.
Lemma qval_sgn' f x : (0 < qval f x)%Q <-> 0 < x.
Proof. rewrite <- (qval_0 f). apply qval_lt. Qed.
Lemma qval_neg f x : (qval f x < 0)%Q <-> x < 0.
Proof. rewrite <- (qval_0 f). apply qval_lt. Qed.
Lemma qval_one f : 0 <= f -> (1 == qval f (2 ^ f))%Q.
Proof. intros. unfold qval, Qeq; cbn [Qnum Qden]. rewrite pow2p_pos by auto. lia. Qed.

Lemma cf_ge0 c : wf c = true -> 0 <= cf c.
Proof. intros W. destruct (wf_bnd c W) as (_ & _ & _ & _ & _ & F). lia. Qed.

Lemma fits_iff c m : fits (bits (ct c)) (sgn (ct c)) m <-> valid c m = true.
Proof. unfold valid. rewrite in_range_iff. unfold fits, lo, hi, minv, maxv. reflexivity. Qed.

Lemma rep_int c n : wf c = true -> representable (bits (ct c)) (sgn (ct c)) (cf c) (inject_Z n) -> valid c (n * 2 ^ cf c) = true.
Proof.
  intros W (m & F & E). apply fits_iff. rewrite <- (qval_int (cf c) n (cf_ge0 c W)) in E. apply qval_eq in E. subst; auto.
Qed.

(** C26 *)
Lemma trunc_thm c m n : wf c = true -> valid c m = true -> is_trunc 0 (qval (cf c) m) n ->
  exists r, fx_trunc c m = Ok r /\ valid c r = true /\ (qval (cf c) r == inject_Z n)%Q.
Proof.
  intros W V H. apply is_trunc_int in H; [|apply cf_ge0; auto]. subst n.
  exists (Z.quot m (2 ^ cf c) * 2 ^ cf c). split; [apply trunc_eq; auto|]. split.
  - apply between_valid with m; auto. apply quot_mul_between; auto.
  - apply qval_int. apply cf_ge0; auto.
Qed.

(** [has_one c]: at least one integer bit, or a type that promotes or is unsigned *)
Definition int_bit (c : cfg) : Prop := wide_signed c = true -> cf c <= bits (ct c) - 2.
Lemma int_bit_q c : wf c = true -> int_bit c -> q_only c = false.
Proof.
  intros W H. unfold q_only, int_bit, wide_signed in *. destruct (sgn (ct c) && (32 <=? bits (ct c))); [|reflexivity].
  specialize (H eq_refl). cbn. apply Z.eqb_neq. lia.
Qed.

(** C27 *)
Lemma floor_thm c m n : wf c = true -> valid c m = true -> is_floor 0 (qval (cf c) m) n ->
  (0 <= qval (cf c) m)%Q \/ (int_bit c /\ fits (bits (ct c)) (sgn (ct c)) (m - (2 ^ cf c - 1))) ->
  exists r, fx_floor c m = Ok r /\ valid c r = true /\ (qval (cf c) r == inject_Z n)%Q.
Proof.
  intros W V H D. apply is_floor_int in H; [|apply cf_ge0; auto]. subst n.
  assert (D' : 0 <= m \/ (q_only c = false /\ valid c (m - (2 ^ cf c - 1)) = true)).
  { destruct D as [D|[D1 D2]]; [left; apply qval_sgn in D; auto|right; split; [apply int_bit_q; auto|apply fits_iff; auto]]. }
  exists (m / 2 ^ cf c * 2 ^ cf c). split; [apply floor_eq; auto|]. split; [|apply qval_int, cf_ge0; auto].
  pose proof (cf_pos c W) as P. pose proof (floor_mult c W m) as FM. pose proof (Z.mod_pos_bound m (2 ^ cf c) P) as MB.
  apply in_range_iff in V. apply in_range_iff.
  destruct D' as [L|[_ V']].
  - assert (0 <= m / 2 ^ cf c * 2 ^ cf c) by (apply Z.mul_nonneg_nonneg; [apply Z.div_pos|]; clear - L P; lia).
    assert (minv (ct c) <= 0) by (unfold minv; destruct (sgn (ct c)); pose proof (proj2 (ity_ok_pow _ (wf_ct c W))); lia).
    clear - V FM MB H H0; lia.
  - apply in_range_iff in V'. clear - V V' FM MB; lia.
Qed.

(** C28 *)
Lemma max_mult c k : wf c = true -> k * 2 ^ cf c <= maxv (ct c) -> k * 2 ^ cf c + (2 ^ cf c - 1) <= maxv (ct c).
Proof.
  intros W H. pose proof (cf_pos c W) as P. destruct (wf_bnd c W) as (_ & _ & _ & _ & _ & F).
  assert (exists j, maxv (ct c) + 1 = j * 2 ^ cf c) as [j E].
  { unfold maxv. destruct (sgn (ct c)).
    - exists (2 ^ (bits (ct c) - 1 - cf c)). rewrite <- Z.pow_add_r by lia. replace (bits (ct c) - 1 - cf c + cf c) with (bits (ct c) - 1) by lia. lia.
    - exists (2 ^ (bits (ct c) - cf c)). rewrite <- Z.pow_add_r by lia. replace (bits (ct c) - cf c + cf c) with (bits (ct c)) by lia. lia. }
  assert (k < j) by nia. nia.
Qed.

Lemma ceil_thm c m n : wf c = true -> valid c m = true -> is_ceil 0 (qval (cf c) m) n ->
  (0 <= qval (cf c) m)%Q -> representable (bits (ct c)) (sgn (ct c)) (cf c) (inject_Z n) ->
  exists r, fx_ceil c m = Ok r /\ valid c r = true /\ (qval (cf c) r == inject_Z n)%Q.
Proof.
  intros W V H L R. apply is_ceil_int in H; [|apply cf_ge0; auto]. apply qval_sgn in L. apply rep_int in R; auto.
  exists (n * 2 ^ cf c). split; [|split; [auto|apply qval_int, cf_ge0; auto]].
  pose proof (cf_pos c W) as P. pose proof (Z.div_mod (- m) (2 ^ cf c) ltac:(clear - P; lia)) as DM.
  pose proof (Z.mod_pos_bound (- m) (2 ^ cf c) P) as MB.
  assert (NM : m <= n * 2 ^ cf c < m + 2 ^ cf c) by (subst n; clear - DM MB; lia).
  assert (V' : valid c (m + (2 ^ cf c - 1)) = true).
  { apply in_range_iff. apply in_range_iff in R, V. pose proof (max_mult c n W (proj2 R)). clear - R V P NM H0. lia. }
  destruct (q_only c) eqn:Q.
  - destruct (mp_q_only c W Q) as (_ & _ & _ & _ & Emax & _). 
    assert (m = 0). { apply in_range_iff in V'. clear - V' Emax L. lia. }
    subst m. change (- 0) with 0 in H. rewrite Z.div_0_l in H by (clear - P; lia). subst n.
    unfold fx_ceil. rewrite mp_fm by auto. cbn [bind]. rewrite lt0_t' by auto. change (0 <? 0) with false. cbn [bind].
    rewrite lt0_t by auto. change (0 <? 0) with false. cbv iota. rewrite trunc_core by auto. rewrite Z.quot_0_l by (clear - P; lia). reflexivity.
  - rewrite ceil_eq by auto. subst n. reflexivity.
Qed.
Lemma ceil_neg_thm c m n : wf c = true -> valid c m = true -> int_bit c -> is_ceil 0 (qval (cf c) m) n ->
  (qval (cf c) m < 0)%Q ->
  exists r, fx_ceil c m = Ok r /\ valid c r = true /\ (qval (cf c) r == inject_Z n + (1 - qval (cf c) 1))%Q.
Proof.
  intros W V Q H L. apply is_ceil_int in H; [|apply cf_ge0; auto]. apply qval_neg in L. apply int_bit_q in Q; auto.
  pose proof (cf_pos c W) as P. pose proof (Z.div_mod (- m) (2 ^ cf c) ltac:(clear - P; lia)) as DM.
  pose proof (Z.mod_pos_bound (- m) (2 ^ cf c) P) as MB.
  exists (n * 2 ^ cf c + (2 ^ cf c - 1)). subst n. split; [rewrite ceil_neg_eq by auto; reflexivity|]. split.
  - apply in_range_iff. apply in_range_iff in V.
    assert (0 <= (- m) / 2 ^ cf c) by (apply Z.div_pos; clear - L P; lia).
    assert (2 ^ cf c - 1 <= maxv (ct c)).
    { pose proof (max_mult c 0 W ltac:(rewrite Z.mul_0_l; pose proof (maxv_pos (ct c) (wf_ct c W)); lia)). lia. }
    assert (0 <= - m / 2 ^ cf c * 2 ^ cf c) by (apply Z.mul_nonneg_nonneg; lia).
    clear - V H0 DM MB L H1 P. lia.
  - rewrite <- (qval_int (cf c)) by (apply cf_ge0; auto). rewrite (qval_one (cf c)) by (apply cf_ge0; auto).
    rewrite qval_sub, qval_add. reflexivity.
Qed.

(** C29 *)
Lemma round_thm c m n : wf c = true -> valid c m = true -> is_nearest_away 0 (qval (cf c) m) n ->
  representable (bits (ct c)) (sgn (ct c)) (cf c) (inject_Z n) ->
  exists r, fx_round c m = Ok r /\ valid c r = true /\ (qval (cf c) r == inject_Z n)%Q.
Proof.
  intros W V H R. apply rep_int in R; auto. unfold qval in H. apply is_nearest_away_iff in H; [|lia].
  rewrite pow2p_pos in H by (apply cf_ge0; auto). rewrite !Z.mul_1_r in H.
  exists (n * 2 ^ cf c). split; [|split; [auto|apply qval_int, cf_ge0; auto]].
  rewrite round_eq by auto. unfold nearest_int. rewrite <- H. rewrite valid_wrap; auto.
Qed.

(** C30 *)
Lemma modf_thm c m n : wf c = true -> valid c m = true -> is_floor 0 (qval (cf c) m) n ->
  (0 <= qval (cf c) m)%Q \/ (int_bit c /\ fits (bits (ct c)) (sgn (ct c)) (m - (2 ^ cf c - 1))) ->
  exists r i, fx_modf c m = Ok (r, i) /\ valid c r = true /\ valid c i = true /\ (qval (cf c) i == inject_Z n)%Q /\
    (0 <= qval (cf c) r)%Q /\ (qval (cf c) r < 1)%Q /\ (qval (cf c) i + qval (cf c) r == qval (cf c) m)%Q.
Proof.
  intros W V H D. destruct (floor_thm c m n W V H D) as (i & E & Vi & Ei).
  apply is_floor_int in H; [|apply cf_ge0; auto].
  assert (D' : 0 <= m \/ (q_only c = false /\ valid c (m - (2 ^ cf c - 1)) = true)).
  { destruct D as [D|[D1 D2]]; [left; apply qval_sgn in D; auto|right; split; [apply int_bit_q; auto|apply fits_iff; auto]]. }
  pose proof (cf_pos c W) as P. pose proof (floor_mult c W m) as FM. pose proof (Z.mod_pos_bound m (2 ^ cf c) P) as MB.
  rewrite (floor_eq c W m V D') in E. injection E as Ei'. rewrite <- Ei' in *.
  exists (m mod 2 ^ cf c), (m / 2 ^ cf c * 2 ^ cf c). split; [apply modf_eq; auto|].
  split.
  { apply in_range_iff. pose proof (max_mult c 0 W ltac:(rewrite Z.mul_0_l; pose proof (maxv_pos (ct c) (wf_ct c W)); lia)).
    assert (minv (ct c) <= 0) by (unfold minv; destruct (sgn (ct c)); pose proof (proj2 (ity_ok_pow _ (wf_ct c W))); lia).
    clear - H0 H1 MB. lia. }
  split; auto. split; auto. split; [apply qval_sgn; apply MB|].
  split. { rewrite (qval_one (cf c)) by (apply cf_ge0; auto). apply qval_lt. apply MB. }
  rewrite qval_add. apply qval_eq. clear - FM. lia.
Qed.

(** C31 *)
Lemma fmod_thm c a b : wf c = true -> cr c = false -> valid c a = true -> valid c b = true ->
  (0 <= qval (cf c) a)%Q -> (0 < qval (cf c) b)%Q ->
  (forall q, is_trunc (cf c) (qval (cf c) a / qval (cf c) b) q -> fits (bits (ct c)) (sgn (ct c)) q) ->
  exists r k, fx_fmod c a b = Ok r /\ valid c r = true /\ (0 <= qval (cf c) r)%Q /\ (qval (cf c) r < qval (cf c) b)%Q /\
    (qval (cf c) a == inject_Z k * qval (cf c) b + qval (cf c) r)%Q.
Proof.
  intros W NR Va Vb Ha Hb Hq. apply qval_sgn in Ha. apply qval_sgn' in Hb. pose proof (cf_pos c W) as P.
  assert (Vq : valid c (a * 2 ^ cf c / b) = true).
  { apply fits_iff. apply Hq. apply is_trunc_div; [apply cf_ge0; auto|lia|]. symmetry. apply Z.quot_div_nonneg; nia. }
  pose proof (Z.mod_pos_bound a b Hb) as MB. pose proof (Z.div_mod a b ltac:(lia)) as DM.
  exists (a mod b), (a / b). split; [apply fmod_pos; auto|]. split.
  { apply in_range_iff. apply in_range_iff in Va, Vb.
    assert (minv (ct c) <= 0) by (unfold minv; destruct (sgn (ct c)); pose proof (proj2 (ity_ok_pow _ (wf_ct c W))); lia).
    clear - Va Vb MB H; lia. }
  split; [apply qval_sgn; apply MB|]. split; [apply qval_lt; apply MB|].
  unfold qval, inject_Z, Qmult, Qplus, Qeq; cbn [Qnum Qden]. rewrite DM at 1. rewrite !Pos.mul_1_l, Pos2Z.inj_mul. ring.
Qed.

(** C32 *)
Lemma abs_thm c m : wf c = true -> valid c m = true ->
  (representable (bits (ct c)) (sgn (ct c)) (cf c) (Qabs (qval (cf c) m)) ->
     exists r, fx_abs c m = Ok r /\ valid c r = true /\ (qval (cf c) r == Qabs (qval (cf c) m))%Q) /\
  (fx_abs c m = UB <-> wide_signed c = true /\ m = - 2 ^ (bits (ct c) - 1)).
Proof.
  intros W V. assert (EA : (Qabs (qval (cf c) m) == qval (cf c) (Z.abs m))%Q) by reflexivity.
  split.
  - intros (r & F & E). rewrite EA in E. apply qval_eq in E. subst r. apply fits_iff in F.
    exists (Z.abs m). split; [apply abs_ok; auto|]. split; [auto|rewrite EA; reflexivity].
  - rewrite abs_eq by auto. unfold ovf, wide_signed. pose proof (proj2 (ity_ok_pow _ (wf_ct c W))) as P2.
    pose proof V as V0. apply in_range_iff in V. unfold minv, maxv in V.
    destruct (sgn (ct c)) eqn:S; cbn [andb].
    2: { split; [discriminate|intros [? _]; discriminate]. }
    destruct (32 <=? bits (ct c)). 2: { split; [discriminate|intros [? _]; discriminate]. }
    destruct (valid c (Z.abs m)) eqn:VA.
    + split; [discriminate|]. intros [_ ->]. apply in_range_iff in VA. unfold maxv in VA. rewrite S in VA. clear - VA P2. lia.
    + split; auto. intros _. split; auto. destruct (Z.eq_dec m (- 2 ^ (bits (ct c) - 1))) as [|N]; auto. exfalso.
      assert (valid c (Z.abs m) = true); [|congruence]. apply in_range_iff. unfold minv, maxv. rewrite S. clear - V N P2. lia.
Qed.
Lemma minmax_thm c a b : wf c = true -> valid c a = true -> valid c b = true ->
  (fx_min c a b = a \/ fx_min c a b = b) /\ (qval (cf c) (fx_min c a b) <= qval (cf c) a)%Q /\
  (qval (cf c) (fx_min c a b) <= qval (cf c) b)%Q /\
  (fx_max c a b = a \/ fx_max c a b = b) /\ (qval (cf c) a <= qval (cf c) (fx_max c a b))%Q /\
  (qval (cf c) b <= qval (cf c) (fx_max c a b))%Q.
Proof.
  intros W Va Vb. rewrite min_eq, max_eq by auto. rewrite !qval_le. lia.
Qed.

(** C33 *)
Lemma sq_le f r m : 0 <= f -> (qval f r * qval f r <= qval f m)%Q <-> r * r <= 2 ^ f * m.
Proof.
  intros Hf. unfold qval, Qmult, Qle; cbn [Qnum Qden]. rewrite Pos2Z.inj_mul, pow2p_pos by auto.
  pose proof (Z.pow_pos_nonneg 2 f ltac:(lia) Hf). nia.
Qed.
Lemma sq_lt f r m : 0 <= f -> (qval f m < qval f r * qval f r)%Q <-> 2 ^ f * m < r * r.
Proof.
  intros Hf. unfold qval, Qmult, Qlt; cbn [Qnum Qden]. rewrite Pos2Z.inj_mul, pow2p_pos by auto.
  pose proof (Z.pow_pos_nonneg 2 f ltac:(lia) Hf). nia.
Qed.
Lemma sqrt32_thm m : valid F32 m = true -> (0 <= qval 16 m)%Q ->
  exists r, fx_sqrt F32 m = Ok r /\ valid F32 r = true /\ (0 <= qval 16 r)%Q /\
    (qval 16 r * qval 16 r <= qval 16 m)%Q /\
    (forall s, (qval 16 r < qval 16 s)%Q -> (qval 16 m < qval 16 s * qval 16 s)%Q).
Proof.
  intros V H. apply qval_sgn in H. destruct (sqrt32_eq F32 m ltac:(split; reflexivity) V H) as (r & E & B & L & U).
  exists r. split; auto. split.
  { apply in_range_iff. change (minv (ct F32)) with (-2147483648). change (maxv (ct F32)) with 2147483647.
    change (2 ^ 24) with 16777216 in B. lia. }
  split; [apply qval_sgn; lia|]. split; [apply sq_le; [lia|auto]|].
  intros s Hs. apply qval_lt in Hs. apply sq_lt; [lia|]. nia.
Qed.

(** C34: what the 32-bit branch computes for any fraction width *)
Lemma sqrt_int32_thm c m V : wf c = true -> ct c = int32 -> valid c m = true -> (0 <= qval (cf c) m)%Q ->
  is_floor 16 (qval (cf c) m) V -> fits 32 true V ->
  exists r, fx_sqrt c m = Ok r /\ (0 <= qval 16 r)%Q /\
    (qval 16 r * qval 16 r <= qval 16 V)%Q /\ (qval 16 V < qval 16 (r + 1) * qval 16 (r + 1))%Q.
Proof.
  intros W Ec Vm H FV FT. apply qval_sgn in H. pose proof (cf_ge0 c W) as F0.
  destruct (wf_bnd c W) as (_ & _ & _ & _ & _ & FB). rewrite Ec in FB. change (bits int32) with 32 in FB.
  unfold fits, lo, hi in FT. change (2 ^ (32 - 1)) with 2147483648 in FT.
  unfold qval in FV. apply is_floor_iff in FV; [|lia]. rewrite pow2p_pos in FV by auto.
  assert (V0 : 0 <= V) by (subst V; apply Z.div_pos; [nia|apply cf_pos; auto]).
  unfold fx_sqrt. rewrite Ec. change (sgn int32 && (bits int32 =? 32)) with true. cbv iota.
  unfold sqrt_int32. rewrite Ec.
  assert (ES : (if cf c >? 16 then c_shr int32 m (cf c - 16) else c_shl int32 m (16 - cf c)) = Ok V).
  { destruct (Z.gtb_spec (cf c) 16) as [G|G].
    - unfold c_shr. change (bits (promote int32)) with 32.
      replace ((0 <=? cf c - 16) && (cf c - 16 <? 32)) with true by (clear - G FB; lia).
      rewrite shiftr_div by lia. f_equal. rewrite FV.
      replace (2 ^ cf c) with (2 ^ (cf c - 16) * 2 ^ 16) by (rewrite <- Z.pow_add_r by lia; f_equal; lia).
      rewrite Z.div_mul_cancel_r; auto; [|discriminate]. apply Z.pow_nonzero; lia.
    - unfold c_shl. change (bits (promote int32)) with 32. change (promote int32) with int32.
      replace ((0 <=? 16 - cf c) && (16 - cf c <? 32)) with true by (clear - G FB; lia).
      rewrite shiftl_mul by lia.
      assert (E : m * 2 ^ (16 - cf c) = V).
      { rewrite FV. replace (2 ^ 16) with (2 ^ (16 - cf c) * 2 ^ cf c) by (rewrite <- Z.pow_add_r by lia; f_equal; lia).
        rewrite Z.mul_assoc, Z.div_mul; auto. apply Z.pow_nonzero; lia. }
      rewrite E. rewrite wrap_id; auto. apply in_range_iff. change (minv int32) with (-2147483648). change (maxv int32) with 2147483647. lia. }
  rewrite ES. cbn [bind].
  assert (EW : wrap uint64 V = V).
  { apply wrap_id; [reflexivity|]. apply u64_r. change (2 ^ 64) with 18446744073709551616. lia. }
  rewrite EW. cbv zeta.
  destruct (sqrt_core V ltac:(change (2 ^ 31) with 2147483648; lia)) as (r & Er & Pr & Br). rewrite Er. cbn [bind].
  pose proof (root_bound r V Pr ltac:(change (2 ^ 31) with 2147483648; lia) (proj1 Br)) as RB. change (2 ^ 24) with 16777216 in RB.
  exists r. unfold from_internal_value. rewrite wrap_id; [|reflexivity|apply in_range_iff; change (minv int32) with (-2147483648); change (maxv int32) with 2147483647; lia].
  split; auto. split; [apply qval_sgn; auto|]. split; [apply sq_le; [lia|apply Br]|apply sq_lt; [lia|apply Br]].
Qed.

(** C36 *)
Lemma sqrt_generic_neg c m : wf c = true -> (sgn (ct c) && (bits (ct c) =? 32)) = false -> valid c m = true ->
  (qval (cf c) m < 0)%Q -> exists r, fx_sqrt c m = Ok r /\ (qval (cf c) r == -1 # 1)%Q.
Proof.
  intros W B V H. apply qval_neg in H. pose proof (cf_ge0 c W) as F0.
  assert (S : sgn (ct c) = true).
  { destruct (sgn (ct c)) eqn:S; auto. apply in_range_iff in V. unfold minv in V. rewrite S in V. lia. }
  exists (- 2 ^ cf c). split.
  - unfold fx_sqrt. rewrite B. unfold sqrt_generic. rewrite zero_eq by auto. cbn [bind].
    rewrite fx_lt_eq by (auto using v0). replace (m <? 0) with true by (symmetry; apply Z.ltb_lt; auto).
    rewrite fx_of_int_eq by auto. replace (-1 * 2 ^ cf c) with (- 2 ^ cf c) by ring. rewrite valid_wrap; auto.
    apply in_range_iff. unfold minv, maxv. rewrite S. destruct (mp_basic c W) as (_ & _ & P & _ & _ & _ & MP & _ & P2). clear - P MP P2. lia.
  - unfold qval, Qeq; cbn [Qnum Qden]. rewrite pow2p_pos by auto. lia.
Qed.

(** the 32-bit branch is defined for every argument *)
Lemma u64_add x y : exists r, c_add uint64 uint64 x y = Ok r. Proof. eexists. reflexivity. Qed.
Lemma u64_sub x y : exists r, c_sub uint64 uint64 x y = Ok r. Proof. eexists. reflexivity. Qed.
Lemma u64_shl1 x : exists r, c_shl uint64 x 1 = Ok r. Proof. eexists. reflexivity. Qed.
Lemma trial_total q b v : exists v1 q1, sqrt_trial q b v = Ok (v1, q1).
Proof.
  unfold sqrt_trial. destruct (u64_add q b) as [t ->]. cbn [bind]. destruct (c_le uint64 uint64 t v); [|eauto].
  destruct (u64_sub v t) as [v1 ->]. cbn [bind]. destruct (u64_add t b) as [q1 ->]. cbn [bind]. eauto.
Qed.
Lemma half_p n : 2 ^ (Z.of_nat (S n)) / 2 ^ 1 = 2 ^ Z.of_nat n.
Proof. rewrite Nat2Z.inj_succ, Z.pow_succ_r by lia. change (2 ^ 1) with 2. rewrite Z.mul_comm, Z.div_mul by discriminate. reflexivity. Qed.
Lemma pow_u64 n : (n <= 30)%nat -> in_range uint64 (2 ^ Z.of_nat n) = true.
Proof.
  intros. apply u64_r. pose proof (Z.pow_pos_nonneg 2 (Z.of_nat n) ltac:(lia) ltac:(lia)).
  assert (2 ^ Z.of_nat n <= 2 ^ 30) by (apply Z.pow_le_mono_r; lia). change (2 ^ 30) with 1073741824 in *. change (2 ^ 64) with 18446744073709551616. lia.
Qed.
Lemma lt_b k n : 0 <= k < 1000 -> (n <= 30)%nat -> c_lt int32 uint64 k (2 ^ Z.of_nat n) = (k <? 2 ^ Z.of_nat n).
Proof.
  intros. apply g_lt with uint64; [reflexivity|reflexivity| |apply pow_u64; auto].
  apply u64_r. change (2 ^ 64) with 18446744073709551616. lia.
Qed.
Lemma loop3_total : forall (n fuel : nat) q v, (n <= 30)%nat -> (n <= fuel)%nat ->
  exists r, sqrt_loop3 fuel q (2 ^ Z.of_nat n) v = Ok r.
Proof.
  induction n as [|n IH]; intros fuel q v Hn Hf.
  - destruct fuel; eexists; reflexivity.
  - destruct fuel as [|fuel]; [lia|]. cbn [sqrt_loop3]. rewrite lt_b by lia.
    destruct (32 <? 2 ^ Z.of_nat (S n)); [|eauto].
    destruct (trial_total q (2 ^ Z.of_nat (S n)) v) as (v1 & q1 & ->). cbn [bind]. destruct (u64_shl1 v1) as [v2 ->]. cbn [bind].
    rewrite u64_shr by lia. cbn [bind]. rewrite half_p. apply IH; lia.
Qed.
Lemma loop2_total : forall (n fuel : nat) q v, (n <= 30)%nat -> (n <= fuel)%nat ->
  exists r, sqrt_loop2 fuel q (2 ^ Z.of_nat n) v = Ok r.
Proof.
  induction n as [|n IH]; intros fuel q v Hn Hf.
  - destruct fuel; eexists; reflexivity.
  - destruct fuel as [|fuel]; [lia|]. cbn [sqrt_loop2]. rewrite lt_b by lia.
    destruct (64 <? 2 ^ Z.of_nat (S n)); [|rewrite u64_shr by lia; eauto].
    destruct (trial_total q (2 ^ Z.of_nat (S n)) v) as (v1 & q1 & ->). cbn [bind]. destruct (u64_shl1 v1) as [v2 Ev2].
    rewrite !u64_shr by lia. cbn [bind]. rewrite half_p.
    destruct (negb (c_and uint64 uint32 v1 2147483648 =? 0)).
    + destruct (loop3_total n 64 (q1 / 2 ^ 1) (v1 / 2 ^ 1) ltac:(lia) ltac:(lia)) as [r ->]. cbn [bind]. rewrite u64_shr by lia. eauto.
    + rewrite Ev2. cbn [bind]. apply IH; lia.
Qed.
Lemma sqrt32_neg_total m : valid F32 m = true -> (qval 16 m < 0)%Q -> exists r, fx_sqrt F32 m = Ok r /\ valid F32 r = true.
Proof.
  intros V H. apply qval_neg in H. unfold fx_sqrt. change (sgn (ct F32) && (bits (ct F32) =? 32)) with true. cbv iota.
  unfold sqrt_int32. change (cf F32) with 16. change (16 >? 16) with false. cbv iota.
  assert (E : c_shl (ct F32) m (16 - 16) = Ok m).
  { unfold c_shl. change ((0 <=? 16 - 16) && (16 - 16 <? bits (promote (ct F32)))) with true. cbv iota. cbv zeta.
    change (16 - 16) with 0. rewrite Z.shiftl_0_r. change (promote (ct F32)) with int32. rewrite wrap_id; auto. }
  rewrite E. cbn [bind].
  assert (EW : wrap uint64 m = m + 2 ^ 64).
  { apply in_range_iff in V. change (minv (ct F32)) with (-2147483648) in V. apply wrap_unique with (k := 1); [reflexivity| |].
    - apply u64_r. change (2 ^ 64) with 18446744073709551616. lia.
    - change (2 ^ bits uint64) with (2 ^ 64). ring. }
  rewrite EW.
  assert (L : c_lt uint64 int32 (m + 2 ^ 64) 1073742336 = false).
  { apply in_range_iff in V. change (minv (ct F32)) with (-2147483648) in V.
    rewrite g_lt with (p := uint64); [|reflexivity|reflexivity|apply u64_r|apply u64_r]; change (2 ^ 64) with 18446744073709551616; lia. }
  rewrite L. change 1073741824 with (2 ^ Z.of_nat 30).
  destruct (loop2_total 30 64 0 (m + 2 ^ 64) ltac:(lia) ltac:(lia)) as [r ->]. cbn [bind]. eexists. split; [reflexivity|].
  unfold from_internal_value. apply wrap_range. reflexivity.
Qed.

(** C55 *)
Lemma fx_add_comm c x y : fx_add c x y = fx_add c y x.
Proof. unfold fx_add, fx_add_assign, c_add. cbv zeta. rewrite Z.add_comm. reflexivity. Qed.
Lemma hypot_comm c x y : wf c = true -> cr c = false -> valid c x = true -> valid c y = true ->
  fx_hypot c x y = fx_hypot c y x.
Proof.
  intros W NR Vx Vy. unfold fx_hypot. rewrite !fx_mul_eq by auto. cbn [bind]. rewrite fx_add_comm. reflexivity.
Qed.
Lemma hypot_sign c x y : wf c = true -> cr c = false -> valid c x = true -> valid c y = true ->
  valid c (- x) = true -> valid c (- y) = true ->
  fx_hypot c (- x) y = fx_hypot c x y /\ fx_hypot c x (- y) = fx_hypot c x y.
Proof.
  intros W NR Vx Vy Vx' Vy'. unfold fx_hypot. rewrite !fx_mul_eq by auto. rewrite !Z.mul_opp_opp. auto.
Qed.

Lemma hypot32_thm x y a b : valid F32 x = true -> valid F32 y = true ->
  is_floor 16 (qval 16 x * qval 16 x) a -> is_floor 16 (qval 16 y * qval 16 y) b -> fits 32 true (a + b) ->
  exists r, fx_hypot F32 x y = Ok r /\ valid F32 r = true /\ (0 <= qval 16 r)%Q /\
    (qval 16 r * qval 16 r <= qval 16 (a + b))%Q /\ (qval 16 (a + b) < qval 16 (r + 1) * qval 16 (r + 1))%Q.
Proof.
  intros Vx Vy Fa Fb FT. apply is_floor_mul in Fa, Fb; try lia.
  assert (a0 : 0 <= a) by (subst a; apply Z.div_pos; [nia|lia]).
  assert (b0 : 0 <= b) by (subst b; apply Z.div_pos; [nia|lia]).
  unfold fits, lo, hi in FT. change (2 ^ (32 - 1)) with 2147483648 in FT.
  assert (VV : forall z, 0 <= z <= 2147483647 -> valid F32 z = true).
  { intros z Hz. apply in_range_iff. change (minv (ct F32)) with (-2147483648). change (maxv (ct F32)) with 2147483647. lia. }
  unfold fx_hypot. rewrite !fx_mul_eq by (auto; reflexivity). change (cf F32) with 16. rewrite <- Fa, <- Fb.
  rewrite !valid_wrap by (try reflexivity; apply VV; lia). cbn [bind].
  rewrite fx_add_eq by (try reflexivity; apply VV; lia). rewrite ovf_valid by (try reflexivity; apply VV; lia). cbn [bind].
  destruct (sqrt32_thm (a + b) ltac:(apply VV; lia) ltac:(apply qval_sgn; lia)) as (r & E & Vr & R0 & L & U).
  exists r. repeat split; auto. apply U. apply qval_lt. lia.
Qed.
(** ... and against the exact sum of squares *)
Lemma hypot32_acc x y a b : is_floor 16 (qval 16 x * qval 16 x) a -> is_floor 16 (qval 16 y * qval 16 y) b ->
  (qval 16 (a + b) <= qval 16 x * qval 16 x + qval 16 y * qval 16 y)%Q /\
  (qval 16 x * qval 16 x + qval 16 y * qval 16 y < qval 16 (a + b) + qval 16 2)%Q.
Proof.
  intros [A1 A2] [B1 B2]. rewrite <- (qval_add 16 a b). rewrite <- (qval_add 16 a 1) in A2. rewrite <- (qval_add 16 b 1) in B2.
  split; [apply Qplus_le_compat; auto|].
  setoid_replace (qval 16 a + qval 16 b + qval 16 2)%Q with ((qval 16 a + qval 16 1) + (qval 16 b + qval 16 1))%Q.
  - apply Qplus_lt_le_compat; auto. apply Qlt_le_weak; auto.
  - setoid_replace (qval 16 2) with (qval 16 1 + qval 16 1)%Q by reflexivity. ring.
Qed.

(** C38, C39 *)
Lemma pow_exact_thm c t B n : wf c = true -> cr c = false -> ity_ok t = true -> in_range t n = true -> 0 <= n ->
  representable (bits (ct c)) (sgn (ct c)) (cf c) (inject_Z B) ->
  exists m, fx_pow_int c t (B * 2 ^ cf c) n = Ok m /\ valid c m = true /\ cong (bits (ct c)) m (B ^ n * 2 ^ cf c) /\
    (representable (bits (ct c)) (sgn (ct c)) (cf c) (inject_Z (B ^ n)) -> (qval (cf c) m == inject_Z (B ^ n))%Q).
Proof.
  intros W NR K R N RB. apply rep_int in RB; auto.
  exists (wrap (ct c) (B ^ n * 2 ^ cf c)). split; [apply pow_int_base; auto|]. split; [apply valid_wrap_valid; auto|].
  split; [apply wrap_cong; apply wf_ct; auto|].
  intros RN. apply rep_int in RN; auto. rewrite valid_wrap by auto. apply qval_int, cf_ge0; auto.
Qed.
Lemma pow_01_thm c t b : wf c = true -> cr c = false -> ity_ok t = true -> valid c b = true ->
  representable (bits (ct c)) (sgn (ct c)) (cf c) 1 ->
  (exists m, fx_pow_int c t b 0 = Ok m /\ (qval (cf c) m == 1)%Q) /\ fx_pow_int c t b 1 = Ok b.
Proof.
  intros W NR K V R. assert (V1 : valid c (2 ^ cf c) = true).
  { rewrite <- (Z.mul_1_l (2 ^ cf c)). apply rep_int; auto. }
  split; [|apply pow_1; auto]. rewrite pow_0 by auto. rewrite fx_of_int_eq by auto. eexists. split; [reflexivity|].
  rewrite Z.mul_1_l, valid_wrap by auto. symmetry. apply qval_one. apply cf_ge0; auto.
Qed.
Lemma pow_neg_thm c t B n r : wf c = true -> cr c = false -> ity_ok t = true -> in_range t (- n) = true -> 0 < n -> B <> 0 ->
  representable (bits (ct c)) (sgn (ct c)) (cf c) 1 ->
  representable (bits (ct c)) (sgn (ct c)) (cf c) (inject_Z B) ->
  representable (bits (ct c)) (sgn (ct c)) (cf c) (inject_Z (B ^ n)) ->
  is_trunc (cf c) (1 / inject_Z (B ^ n)) r ->
  fx_pow_int c t (B * 2 ^ cf c) (- n) = Ok r.
Proof.
  intros W NR K R N B0 R1 RB RN HT. pose proof (cf_ge0 c W) as F0.
  assert (V1 : valid c (2 ^ cf c) = true).
  { rewrite <- (Z.mul_1_l (2 ^ cf c)). apply rep_int; auto. }
  apply rep_int in RB, RN; auto. rewrite pow_int_neg by auto. f_equal.
  assert (PN : B ^ n <> 0) by (apply Z.pow_nonzero; lia).
  assert (E : (1 / inject_Z (B ^ n) == qval (cf c) (2 ^ cf c) / qval (cf c) (B ^ n * 2 ^ cf c))%Q).
  { rewrite qval_int, <- qval_one by auto. reflexivity. }
  apply (is_trunc_Qeq _ _ _ _ E) in HT. pose proof (cf_pos c W) as P. apply is_trunc_div in HT; [|auto|nia].
  subst r. rewrite Z.quot_mul_cancel_r; auto. lia.
Qed.
