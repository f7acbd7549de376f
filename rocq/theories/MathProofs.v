(** Proofs about trunc, floor, ceil, round, abs, min, max, modf and fmod (C26-C32). *)
From Coq Require Import ZArith Bool List Lia ZifyBool QArith Zquot.
From Verif Require Import Base Fixed Math Spec BaseLemmas SpecLemmas FixedLemmas CLemmas.
Open Scope Z_scope.

(** ** operators whose operands and exact result are in range of the common type *)
Section GEN.
  Variables (t1 t2 p : ity) (x y : Z).
  Hypotheses (K : ity_ok p = true) (U : uac t1 t2 = p) (Hx : in_range p x = true) (Hy : in_range p y = true).
  Lemma g_wx : wrap p x = x. Proof. apply wrap_id; auto. Qed.
  Lemma g_wy : wrap p y = y. Proof. apply wrap_id; auto. Qed.
  Lemma g_add : in_range p (x + y) = true -> c_add t1 t2 x y = Ok (x + y).
  Proof. intros. unfold c_add. cbv zeta. rewrite U, g_wx, g_wy. apply arith_ok; auto. Qed.
  Lemma g_sub : in_range p (x - y) = true -> c_sub t1 t2 x y = Ok (x - y).
  Proof. intros. unfold c_sub. cbv zeta. rewrite U, g_wx, g_wy. apply arith_ok; auto. Qed.
  Lemma g_mul : in_range p (x * y) = true -> c_mul t1 t2 x y = Ok (x * y).
  Proof. intros. unfold c_mul. cbv zeta. rewrite U, g_wx, g_wy. apply arith_ok; auto. Qed.
  Lemma g_div : y <> 0 -> in_range p (Z.quot x y) = true -> c_div t1 t2 x y = Ok (Z.quot x y).
  Proof.
    intros N R. unfold c_div. cbv zeta. rewrite U, g_wx, g_wy.
    replace (y =? 0) with false by (symmetry; apply Z.eqb_neq; auto). apply arith_ok; auto.
  Qed.
  Lemma g_rem : y <> 0 -> in_range p (Z.quot x y) = true -> c_rem t1 t2 x y = Ok (Z.rem x y).
  Proof.
    intros N R. unfold c_rem. cbv zeta. rewrite U, g_wx, g_wy.
    replace (y =? 0) with false by (symmetry; apply Z.eqb_neq; auto). rewrite R, andb_false_r. reflexivity.
  Qed.
  Lemma g_lt : c_lt t1 t2 x y = (x <? y).
  Proof. unfold c_lt. cbv zeta. rewrite U, g_wx, g_wy. reflexivity. Qed.
  Lemma g_le : c_le t1 t2 x y = (x <=? y).
  Proof. unfold c_le. cbv zeta. rewrite U, g_wx, g_wy. reflexivity. Qed.
  Lemma g_eq : c_eq t1 t2 x y = (x =? y).
  Proof. unfold c_eq. cbv zeta. rewrite U, g_wx, g_wy. reflexivity. Qed.
End GEN.

Lemma uac_i32_l t : ity_ok t = true -> uac int32 t = promote t.
Proof.
  intros K. destruct (ity_ok_bits t K) as [E|[E|[E|[E|E]]]]; unfold uac, promote; rewrite E; cbn;
    try reflexivity; destruct t as [b [|]]; cbn in *; subst; reflexivity.
Qed.

(** Is [2^f] outside the promoted store type?  Only for a signed type of at least 32 bits without
    integer bits. *)
Definition q_only (c : cfg) : bool := sgn (ct c) && (32 <=? bits (ct c)) && (cf c =? bits (ct c) - 1).

Section MP.
Variable c : cfg.
Hypothesis W : wf c = true.
Let t := ct c.
Let p := promote t.
Let M := 2 ^ cf c.

Lemma mp_basic : ity_ok t = true /\ ity_ok p = true /\ 0 < M /\ 8 <= bits t <= 64 /\ 1 <= cf c <= bits t - 1 /\
  2 <= M /\ M <= 2 ^ (bits t - 1) /\ 2 ^ bits t = 2 * 2 ^ (bits t - 1) /\ 0 < 2 ^ (bits t - 1).
Proof.
  destruct (wf_bnd c W) as (BB & K & _ & _ & _ & F). fold t in BB, K, F.
  destruct (ity_ok_pow t K) as [E2 P2].
  assert (0 < M) by (apply cf_pos; auto).
  assert (2 <= M) by (unfold M; change 2 with (2 ^ 1) at 1; apply Z.pow_le_mono_r; lia).
  assert (M <= 2 ^ (bits t - 1)) by (unfold M; apply Z.pow_le_mono_r; lia).
  assert (ity_ok p = true) by (apply promote_ok; auto).
  repeat split; auto; try apply BB; try apply F.
Qed.

Lemma mp_fm : frac_mult c = Ok (wrap p M).
Proof. unfold frac_mult. rewrite one_shift by auto. reflexivity. Qed.

(** the promoted type contains the store type; its bounds *)
Lemma mp_range : minv p <= minv t /\ maxv t <= maxv p /\ (sgn t = true -> minv t = - 2 ^ (bits t - 1) /\ maxv t = 2 ^ (bits t - 1) - 1)
  /\ (sgn t = false -> minv t = 0 /\ maxv t = 2 ^ bits t - 1) /\ minv p <= 0 /\ 2147483647 <= maxv p.
Proof.
  destruct (wf_bnd c W) as (BB & K & _ & _ & _ & F). fold t in BB, K, F.
  destruct (ity_ok_bits t K) as [E|[E|[E|[E|E]]]]; unfold p, promote, minv, maxv; rewrite E; cbn;
    destruct (sgn t) eqn:S; cbn; rewrite ?E, ?S; cbn; repeat split; intros; try lia; congruence.
Qed.

Lemma mp_fm_in : q_only c = false -> in_range p M = true /\ wrap p M = M.
Proof.
  intros Q. destruct mp_basic as (K & KP & P & B & F & M2 & MP & E2 & P2).
  assert (R : in_range p M = true).
  { unfold q_only in Q. fold t in Q. apply in_range_iff.
    destruct mp_range as (R1 & R2 & RS & RU & R3 & R4).
    split; [clear - R3 P; lia|].
    destruct (sgn t) eqn:S.
    - destruct (Z.ltb_spec (bits t) 32) as [L|L].
      + apply Z.le_trans with 2147483647; [|auto].
        apply Z.le_trans with (1 := MP). apply Z.le_trans with (2 ^ 30); [|discriminate].
        apply Z.pow_le_mono_r; lia.
      + assert (cf c <= bits t - 2) by (cbn in Q; lia).
        apply Z.le_trans with (2 := R2). destruct (RS eq_refl) as [_ ->].
        assert (2 * M <= 2 ^ (bits t - 1)).
        { unfold M. replace (bits t - 1) with ((bits t - 2) + 1) by lia. rewrite Z.pow_add_r by lia.
          assert (2 ^ cf c <= 2 ^ (bits t - 2)) by (apply Z.pow_le_mono_r; lia). lia. }
        clear - H0 P; lia.
    - apply Z.le_trans with (2 := R2). destruct (RU eq_refl) as [_ ->]. clear - MP E2 P2; lia. }
  split; [auto|]. apply wrap_id; auto.
Qed.

Lemma mp_q_only : q_only c = true -> p = t /\ M = 2 ^ (bits t - 1) /\ wrap p M = - M /\ minv t = - M /\ maxv t = M - 1 /\ 2147483648 <= M.
Proof.
  intros Q. unfold q_only in Q. fold t in Q.
  destruct mp_basic as (K & KP & P & B & F & M2 & MP & E2 & P2).
  assert (S : sgn t = true) by (destruct (sgn t); auto).
  assert (B32 : 32 <= bits t) by (rewrite S in Q; cbn in Q; lia).
  assert (CF : cf c = bits t - 1) by (rewrite S in Q; cbn in Q; lia).
  assert (EP : p = t) by (apply sgn_promote_wide; auto).
  assert (EM : M = 2 ^ (bits t - 1)) by (unfold M; rewrite CF; reflexivity).
  repeat split; auto.
  - rewrite EP. apply wrap_unique with (k := -1); auto.
    + apply in_range_iff. unfold minv, maxv. rewrite S, <- EM. clear - P; lia.
    + rewrite E2, <- EM. clear; lia.
  - unfold minv. rewrite S, EM. reflexivity.
  - unfold maxv. rewrite S, EM. reflexivity.
  - rewrite EM. change 2147483648 with (2 ^ 31). apply Z.pow_le_mono_r; lia.
Qed.

Lemma mp_v (m : Z) : valid c m = true -> in_range p m = true.
Proof. intros V. apply promote_range; auto. apply mp_basic. Qed.

Lemma mp_uac_tp : uac t p = p. Proof. apply uac_promote_r. Qed.
Lemma mp_uac_pp : uac p p = p. Proof. apply uac_pp. Qed.
Lemma mp_uac_pi : uac p int32 = p. Proof. apply uac_i32. apply mp_basic. Qed.
Lemma mp_uac_ti : uac t int32 = p. Proof. apply uac_i32'. apply mp_basic. Qed.
Lemma mp_uac_it : uac int32 t = p. Proof. apply uac_i32_l. apply mp_basic. Qed.
Lemma mp_small k : 0 <= k <= 127 -> in_range p k = true.
Proof. intros. apply in_range_small; auto. apply mp_basic. Qed.

Lemma wrap_tp x : wrap t (wrap p x) = wrap t x.
Proof. apply wrap_wrap_p. apply mp_basic. Qed.

(** truncation multiple of M lies between x and 0 *)
Lemma quot_mul_between x : Z.min x 0 <= Z.quot x M * M <= Z.max x 0.
Proof.
  assert (P : 0 < M) by apply mp_basic.
  destruct (Z.le_gt_cases 0 x).
  - rewrite quot_pos_div by (auto; clear - P; lia). pose proof (Z.mul_div_le x M P).
    assert (0 <= x / M) by (apply Z.div_pos; auto). assert (0 <= x / M * M) by (apply Z.mul_nonneg_nonneg; lia). lia.
  - rewrite quot_neg_div by (auto; clear - P H; lia).
    pose proof (Z.mul_div_le (- x) M P).
    assert (0 <= - x / M) by (apply Z.div_pos; lia). assert (0 <= (- x / M) * M) by (apply Z.mul_nonneg_nonneg; lia). lia.
Qed.

Lemma between_valid x y : valid c x = true -> Z.min x 0 <= y <= Z.max x 0 -> in_range t y = true.
Proof.
  intros V Hy. apply in_range_iff in V. fold t in V. apply in_range_iff.
  assert (minv t <= 0 <= maxv t).
  { pose proof (maxv_pos t ltac:(apply mp_basic)).
    unfold minv in *; destruct (sgn t); pose proof (proj2 (ity_ok_pow t ltac:(apply mp_basic))); lia. }
  clear - V Hy H; lia.
Qed.

(** [value / frac_mult * frac_mult] *)
Lemma trunc_core x : valid c x = true ->
  (let* q := c_div t p x (wrap p M) in let* k := c_mul p p q (wrap p M) in Ok (from_internal_value c (wrap t k)))
  = Ok (Z.quot x M * M).
Proof.
  intros V. destruct mp_basic as (K & KP & P & B & F & M2 & MP & E2 & P2).
  pose proof (mp_v x V) as VP.
  assert (VQ : in_range t (Z.quot x M * M) = true) by (apply between_valid with x; auto; apply quot_mul_between).
  assert (WQ : wrap t (Z.quot x M * M) = Z.quot x M * M) by (apply wrap_id; auto).
  destruct (q_only c) eqn:Q.
  - destruct (mp_q_only Q) as (EP & EM & EW & Emin & Emax & Big). rewrite EW, EP in *.
    apply in_range_iff in V. fold t in V. rewrite Emin, Emax in V.
    assert (RM : in_range t (- M) = true) by (apply in_range_iff; clear - Emin Emax P; lia).
    assert (UT : uac t t = t) by (rewrite uac_refl; exact EP).
    destruct (Z.eq_dec x (- M)) as [->|N].
    + rewrite (g_div t t t (- M) (- M) K UT RM RM ltac:(clear - P; lia)) by (rewrite Z.quot_same by (clear - P; lia); apply in_range_small; auto; lia).
      rewrite Z.quot_same by (clear - P; lia). cbn [bind].
      rewrite (g_mul t t t 1 (- M) K UT) by (try rewrite Z.mul_1_l; auto; apply in_range_small; auto; lia).
      rewrite Z.mul_1_l. cbn [bind]. unfold from_internal_value. rewrite wrap_id by auto.
      rewrite Z.quot_opp_l, Z.quot_same by (clear - P; lia). f_equal; try (clear; lia).
    + assert (HQ : Z.quot x M = 0) by (apply Z.quot_small_iff; clear - V P N; lia).
      assert (HQ' : Z.quot x (- M) = 0) by (rewrite Z.quot_opp_r, HQ by (clear - P; lia); reflexivity).
      rewrite (g_div t t t x (- M) K UT VP RM ltac:(clear - P; lia)) by (rewrite HQ'; apply in_range_small; auto; lia).
      rewrite HQ'. cbn [bind].
      rewrite (g_mul t t t 0 (- M) K UT) by (auto; apply in_range_small; auto; lia).
      cbn [bind]. unfold from_internal_value. rewrite HQ. cbn [Z.mul]. rewrite wrap_id by (auto; apply in_range_small; auto; lia).
      reflexivity.
  - destruct (mp_fm_in Q) as [RM EW]. rewrite EW.
    assert (VQ0 : in_range p (Z.quot x M) = true).
    { apply promote_range; auto. apply between_valid with x; auto. apply quot_between; auto. }
    rewrite (g_div t p p x M KP mp_uac_tp VP RM ltac:(clear - P; lia) VQ0). cbn [bind].
    rewrite (g_mul p p p _ M KP mp_uac_pp VQ0 RM) by (apply promote_range; auto). cbn [bind].
    unfold from_internal_value. rewrite WQ. reflexivity.
Qed.

Theorem trunc_eq m : valid c m = true -> fx_trunc c m = Ok (Z.quot m M * M).
Proof. intros V. unfold fx_trunc. rewrite mp_fm. cbn [bind]. apply trunc_core; auto. Qed.

Lemma lt0_t m : valid c m = true -> c_lt t int32 m 0 = (m <? 0).
Proof.
  intros V. apply g_lt with p; [apply mp_basic|apply mp_uac_ti|apply mp_v; auto|apply mp_small; lia].
Qed.
Lemma lt0_t' m : valid c m = true -> c_lt int32 t 0 m = (0 <? m).
Proof.
  intros V. apply g_lt with p; [apply mp_basic|apply mp_uac_it|apply mp_small; lia|apply mp_v; auto].
Qed.

Lemma fm_minus_1 : q_only c = false -> c_sub p int32 (wrap p M) 1 = Ok (M - 1) /\ in_range p (M - 1) = true.
Proof.
  intros Q. destruct (mp_fm_in Q) as [RM EW]. rewrite EW. destruct mp_basic as (K & KP & P & _).
  assert (R : in_range p (M - 1) = true).
  { apply in_range_iff. apply in_range_iff in RM. destruct mp_range as (_ & _ & _ & _ & R3 & _). clear - RM R3 P; lia. }
  split; auto. apply g_sub with p; auto; [apply mp_uac_pi|apply mp_small; lia].
Qed.

Lemma floor_mult m : m / M * M = m - m mod M.
Proof. assert (P : 0 < M) by apply mp_basic. pose proof (Z.div_mod m M ltac:(clear - P; lia)). clear - H; lia. Qed.

(** floor away from the bottom of the range *)
Theorem floor_eq m : valid c m = true -> 0 <= m \/ (q_only c = false /\ valid c (m - (M - 1)) = true) ->
  fx_floor c m = Ok (m / M * M).
Proof.
  intros V H. destruct mp_basic as (K & KP & P & B & F & M2 & MP & E2 & P2).
  unfold fx_floor. fold t p. rewrite mp_fm. cbn [bind]. rewrite lt0_t by auto.
  destruct (Z.ltb_spec m 0) as [L|L].
  - destruct H as [H|[Q V']]; [exfalso; clear - L H; lia|].
    destruct (fm_minus_1 Q) as [E1 R1]. rewrite E1. cbn [bind].
    rewrite (g_sub t p p m (M - 1) KP mp_uac_tp (mp_v m V) R1) by (apply mp_v; auto). cbn [bind].
    rewrite (wrap_id t (m - (M - 1))) by auto.
    rewrite lt0_t' by auto. replace (0 <? m - (M - 1)) with false by (symmetry; apply Z.ltb_ge; clear - L P; lia).
    cbn [andb]. rewrite trunc_core by auto. f_equal.
    rewrite quot_neg_div by (clear - L P; lia).
    replace (- (m - (M - 1))) with ((- m - 1) + 1 * M) by (clear; lia).
    rewrite Z.div_add by (clear - P; lia).
    assert (E : m / M = - ((- m - 1) / M + 1)).
    { symmetry. apply Z.div_unique_pos with (r := M - 1 - (- m - 1) mod M).
      - pose proof (Z.mod_pos_bound (- m - 1) M P). clear - H; lia.
      - pose proof (Z.div_mod (- m - 1) M ltac:(clear - P; lia)). clear - H; lia. }
    rewrite E. reflexivity.
  - cbn [bind andb]. rewrite trunc_core by auto. rewrite quot_pos_div by auto. reflexivity.
Qed.

(** ceil of a non-negative value whose ceiling is representable *)
Theorem ceil_eq m : valid c m = true -> 0 <= m -> valid c (m + (M - 1)) = true ->
  q_only c = false -> fx_ceil c m = Ok (- ((- m) / M) * M).
Proof.
  intros V H V' Q. destruct mp_basic as (K & KP & P & B & F & M2 & MP & E2 & P2).
  unfold fx_ceil. fold t p. rewrite mp_fm. cbn [bind]. rewrite lt0_t' by auto.
  assert (E : forall v, 0 < m -> v = m + (M - 1) -> v / M = - ((- m) / M)).
  { intros v Hm ->. symmetry. apply Z.div_unique_pos with (r := M - 1 - (- m) mod M).
    - pose proof (Z.mod_pos_bound (- m) M P). clear - H0; lia.
    - pose proof (Z.div_mod (- m) M ltac:(clear - P; lia)). clear - H0; lia. }
  destruct (Z.ltb_spec 0 m) as [L|L].
  - destruct (fm_minus_1 Q) as [E1 R1]. rewrite E1. cbn [bind].
    rewrite (g_add t p p m (M - 1) KP mp_uac_tp (mp_v m V) R1) by (apply mp_v; auto). cbn [bind].
    rewrite (wrap_id t (m + (M - 1))) by auto.
    rewrite lt0_t by auto. replace (m + (M - 1) <? 0) with false by (symmetry; apply Z.ltb_ge; clear - L P; lia).
    rewrite trunc_core by auto. rewrite quot_pos_div by (clear - L P; lia). rewrite E by auto. reflexivity.
  - cbn [bind]. rewrite lt0_t by auto. replace (m <? 0) with false by (symmetry; apply Z.ltb_ge; clear - H; lia).
    rewrite trunc_core by auto. assert (m = 0) by (clear - H L; lia). subst m. reflexivity.
Qed.

(** ceil of a negative value *)
Theorem ceil_neg_eq m : valid c m = true -> m < 0 -> q_only c = false ->
  fx_ceil c m = Ok (- ((- m) / M) * M + (M - 1)).
Proof.
  intros V L Q. destruct mp_basic as (K & KP & P & B & F & M2 & MP & E2 & P2).
  unfold fx_ceil. fold t p. rewrite mp_fm. cbn [bind]. rewrite lt0_t' by auto.
  replace (0 <? m) with false by (symmetry; apply Z.ltb_ge; clear - L; lia). cbn [bind].
  rewrite lt0_t by auto. replace (m <? 0) with true by (symmetry; apply Z.ltb_lt; auto).
  destruct (mp_fm_in Q) as [RM EW]. rewrite EW.
  assert (VQ : in_range t (Z.quot m M * M) = true) by (apply between_valid with m; auto; apply quot_mul_between).
  assert (VQ0 : in_range p (Z.quot m M) = true).
  { apply promote_range; auto. apply between_valid with m; auto. apply quot_between; auto. }
  assert (VP : in_range p (Z.quot m M * M) = true) by (apply promote_range; auto).
  rewrite (g_div t p p m M KP mp_uac_tp (mp_v m V) RM ltac:(clear - P; lia) VQ0). cbn [bind].
  rewrite (g_mul p p p _ M KP mp_uac_pp VQ0 RM VP). cbn [bind].
  pose proof (quot_mul_between m) as QB.
  assert (ST : in_range p (Z.quot m M * M + M) = true).
  { apply in_range_iff. apply in_range_iff in VP, RM. clear - VP RM QB L P; lia. }
  rewrite (g_add p p p _ M KP mp_uac_pp VP RM ST). cbn [bind].
  assert (E : Z.quot m M = - ((- m) / M)) by (apply quot_neg_div; [clear - L; lia|exact P]).
  assert (RT : in_range t (Z.quot m M * M + M - 1) = true).
  { apply in_range_iff. apply in_range_iff in VQ, V. fold t in V.
    assert (M - 1 <= maxv t).
    { unfold maxv. destruct (sgn t); clear - MP E2 P2; lia. }
    clear - VQ QB L P H; lia. }
  rewrite (g_sub p int32 p _ 1 KP mp_uac_pi ST (mp_small 1 ltac:(clear; lia)) (promote_range t _ K RT)).
  cbn [bind]. unfold from_internal_value. rewrite wrap_id by auto. rewrite E. f_equal. clear; lia.
Qed.

(** round *)
Definition nearest_int (m : Z) : Z :=
  if 0 <=? m then (2 * m + M) / (2 * M) else - ((2 * (- m) + M) / (2 * M)).
Let H := 2 ^ (cf c - 1).
Lemma mp_half : M = 2 * H /\ 0 < H.
Proof.
  destruct mp_basic as (_ & _ & _ & _ & F & _). unfold M, H. split; [|apply pow2_pos; lia].
  replace (cf c) with (cf c - 1 + 1) at 1 by lia. rewrite Z.pow_add_r by lia. lia.
Qed.

Lemma nearest_quot m : Z.quot (Z.quot m H) 2 + Z.rem (Z.quot m H) 2 = nearest_int m.
Proof.
  destruct mp_half as [EM PH]. unfold nearest_int. rewrite EM.
  assert (NN : forall n, 0 <= n -> Z.quot (n / H) 2 + Z.rem (n / H) 2 = (2 * n + 2 * H) / (2 * (2 * H))).
  { intros n Hn. assert (0 <= n / H) by (apply Z.div_pos; auto).
    rewrite Z.quot_div_nonneg, Z.rem_mod_nonneg by lia.
    replace (2 * n + 2 * H) with ((n + 1 * H) * 2) by (clear; lia). replace (2 * (2 * H)) with (H * 2 * 2) by (clear; lia).
    rewrite Z.div_mul_cancel_r by (clear - PH; lia). rewrite <- Z.div_div, Z.div_add by (clear - PH; lia).
    set (k := n / H) in *. pose proof (Z.div_mod k 2 ltac:(lia)). pose proof (Z.mod_pos_bound k 2 ltac:(lia)).
    pose proof (Z.div_mod (k + 1) 2 ltac:(lia)). pose proof (Z.mod_pos_bound (k + 1) 2 ltac:(lia)). lia. }
  destruct (Z.leb_spec 0 m) as [L|L].
  - rewrite (quot_pos_div m H) by auto. apply NN; auto.
  - rewrite (quot_neg_div m H) by (auto; clear - L; lia).
    rewrite Z.quot_opp_l, Z.rem_opp_l by discriminate. rewrite <- NN by (clear - L; lia). clear; lia.
Qed.

Theorem round_eq m : valid c m = true -> fx_round c m = Ok (wrap t (nearest_int m * M)).
Proof.
  intros V. destruct mp_basic as (K & KP & P & B & F & M2 & MP & E2 & P2). destruct mp_half as [EM PH].
  unfold fx_round. fold t p. rewrite mp_fm. cbn [bind]. rewrite <- nearest_quot.
  pose proof (mp_v m V) as VP.
  pose proof (promote_bits t K) as [PB1 PB2]. fold p in PB1, PB2.
  assert (SH : forall s, c_shl p s (cf c) = Ok (wrap p (s * M))).
  { intros s. assert (PP : promote p = p) by apply promote_promote. unfold c_shl. cbv zeta. rewrite PP.
    replace ((0 <=? cf c) && (cf c <? bits p)) with true by (symmetry; apply andb_true_intro; split; [apply Z.leb_le|apply Z.ltb_lt]; clear - F PB1; lia).
    rewrite shiftl_mul by (clear - F; lia). reflexivity. }
  assert (TT : wrap p 2 = 2) by (apply wrap_id; auto; apply mp_small; clear; lia).
  assert (R2 : in_range p 2 = true) by (apply mp_small; clear; lia).
  assert (Small : forall v, in_range p v = true -> in_range p (Z.quot v 2) = true /\ in_range p (Z.quot v 2 + Z.rem v 2) = true).
  { intros v Hv. apply in_range_iff in Hv. destruct mp_range as (_ & _ & _ & _ & R3 & R4).
    pose proof (quot_between v 2 eq_refl).
    pose proof (Z.quot_rem v 2 ltac:(discriminate)). pose proof (Z.rem_bound_abs v 2 ltac:(discriminate)).
    split; apply in_range_iff; clear - Hv R3 R4 H0 H1 H2; lia. }
  assert (FIN : forall v h, in_range p h = true -> in_range p v = true ->
     (let* a := c_div p int32 v 2 in let* b := c_rem p int32 v 2 in let* s := c_add p p a b in
      let* k := c_shl p s (cf c) in Ok (from_internal_value c (wrap t k))) = Ok (wrap t ((Z.quot v 2 + Z.rem v 2) * M))).
  { intros v h _ Hv. destruct (Small v Hv) as [S1 S2].
    rewrite (g_div p int32 p v 2 KP mp_uac_pi Hv R2) by (auto; discriminate). cbn [bind].
    rewrite (g_rem p int32 p v 2 KP mp_uac_pi Hv R2) by (auto; discriminate). cbn [bind].
    assert (RR : in_range p (Z.rem v 2) = true).
    { apply in_range_iff. destruct mp_range as (R1 & _ & RS & RU & R3 & R4). apply in_range_iff in Hv.
      pose proof (Z.rem_bound_abs v 2 ltac:(discriminate)).
      destruct (Z.le_gt_cases 0 v) as [N|N].
      - pose proof (Z.rem_nonneg v 2 ltac:(discriminate) N). clear - H0 H1 R3 R4; lia.
      - clear - H0 N Hv R4; lia. }
    rewrite (g_add p p p _ _ KP mp_uac_pp S1 RR S2). cbn [bind]. rewrite SH. cbn [bind]. unfold from_internal_value.
    rewrite wrap_tp. reflexivity. }
  destruct (q_only c) eqn:Q.
  - destruct (mp_q_only Q) as (EP & EM' & EW & Emin & Emax & Big). rewrite EW.
    assert (RM : in_range p (- M) = true) by (rewrite EP; apply in_range_iff; clear - Emin Emax P; lia).
    assert (EH : Z.quot (- M) 2 = - H).
    { rewrite Z.quot_opp_l by discriminate. rewrite EM, Z.mul_comm, Z.quot_mul by discriminate. reflexivity. }
    assert (RH : in_range p (- H) = true) by (rewrite EP; apply in_range_iff; clear - Emin Emax P EM PH; lia).
    rewrite (g_div p int32 p (- M) 2 KP mp_uac_pi RM R2) by (try rewrite EH; auto; discriminate). rewrite EH. cbn [bind].
    assert (EQ : Z.quot m (- H) = - Z.quot m H) by (apply Z.quot_opp_r; clear - PH; lia).
    assert (RQ : in_range p (- Z.quot m H) = true).
    { rewrite EP. apply in_range_iff. apply in_range_iff in V. fold t in V. rewrite Emin, Emax in *.
      assert (Z.abs (Z.quot m H) <= 2).
      { rewrite <- Z.quot_abs by (clear - PH; lia). rewrite (Z.abs_eq H) by (clear - PH; lia).
        rewrite Z.quot_div_nonneg by (clear - PH; lia). apply Z.lt_succ_r. apply Z.div_lt_upper_bound; auto. clear - V EM PH; lia. }
      clear - H0 Big; lia. }
    rewrite (g_div t p p m (- H) KP mp_uac_tp VP RH) by (try rewrite EQ; auto; clear - PH; lia). rewrite EQ. cbn [bind].
    rewrite (FIN _ (- H) RH RQ). f_equal.
    rewrite Z.quot_opp_l, Z.rem_opp_l by discriminate. set (s := Z.quot (Z.quot m H) 2 + Z.rem (Z.quot m H) 2).
    apply wrap_cong_eq with (k := - s); auto. rewrite E2, <- EM'. unfold s. clear; lia.
  - destruct (mp_fm_in Q) as [RM EW]. rewrite EW.
    assert (EH : Z.quot M 2 = H) by (rewrite EM, Z.mul_comm, Z.quot_mul by discriminate; reflexivity).
    assert (RH : in_range p H = true).
    { apply in_range_iff. apply in_range_iff in RM. destruct mp_range as (_ & _ & _ & _ & R3 & R4). clear - RM EM PH R3; lia. }
    rewrite (g_div p int32 p M 2 KP mp_uac_pi RM R2) by (try rewrite EH; auto; discriminate). rewrite EH. cbn [bind].
    assert (RQ : in_range p (Z.quot m H) = true).
    { apply promote_range; auto. apply between_valid with m; auto. apply quot_between; auto. }
    rewrite (g_div t p p m H KP mp_uac_tp VP RH) by (auto; clear - PH; lia). cbn [bind].
    apply (FIN _ H RH RQ).
Qed.

(** abs *)
Theorem abs_eq m : valid c m = true -> fx_abs c m = ovf c (Z.abs m).
Proof.
  intros V. unfold fx_abs. fold t. rewrite lt0_t by auto. unfold from_internal_value.
  destruct (Z.ltb_spec m 0) as [L|L].
  - rewrite Z.abs_neq by (clear - L; lia). rewrite <- fx_neg_eq by auto. reflexivity.
  - rewrite Z.abs_eq by auto. cbn [bind]. unfold t. rewrite valid_wrap by auto. symmetry. apply ovf_valid; auto.
Qed.
Theorem abs_ok m : valid c m = true -> valid c (Z.abs m) = true -> fx_abs c m = Ok (Z.abs m).
Proof. intros V V'. rewrite abs_eq by auto. apply ovf_valid; auto. Qed.

(** min / max *)
Lemma lt_tt a b : valid c a = true -> valid c b = true -> c_lt t t a b = (a <? b).
Proof. intros Va Vb. apply g_lt with p; [apply mp_basic|apply uac_refl|apply mp_v; auto|apply mp_v; auto]. Qed.
Theorem min_eq a b : valid c a = true -> valid c b = true -> fx_min c a b = Z.min a b.
Proof. intros Va Vb. unfold fx_min. fold t. rewrite lt_tt by auto. destruct (Z.ltb_spec a b); lia. Qed.
Theorem max_eq a b : valid c a = true -> valid c b = true -> fx_max c a b = Z.max a b.
Proof. intros Va Vb. unfold fx_max. fold t. rewrite lt_tt by auto. destruct (Z.ltb_spec b a); lia. Qed.

(** modf *)
Theorem modf_eq m : valid c m = true -> 0 <= m \/ (q_only c = false /\ valid c (m - (M - 1)) = true) ->
  fx_modf c m = Ok (m mod M, m / M * M).
Proof.
  intros V HH. unfold fx_modf. rewrite floor_eq by auto. cbn [bind].
  assert (P : 0 < M) by apply mp_basic.
  pose proof (Z.mod_pos_bound m M P) as MB. pose proof (floor_mult m) as FM.
  destruct mp_basic as (K & KP & _ & B & F & M2 & MP & E2 & P2).
  assert (VF : valid c (m / M * M) = true).
  { apply in_range_iff. fold t. apply in_range_iff in V. fold t in V.
    destruct HH as [L|[_ V']].
    - assert (0 <= m / M * M) by (apply Z.mul_nonneg_nonneg; [apply Z.div_pos|]; clear - L P; lia).
      assert (minv t <= 0) by (unfold minv; destruct (sgn t); clear - P2; lia).
      clear - V FM MB H0 H1; lia.
    - apply in_range_iff in V'. fold t in V'. clear - V V' FM MB; lia. }
  assert (VR : valid c (m mod M) = true).
  { apply in_range_iff. fold t. assert (minv t <= 0 /\ M - 1 <= maxv t).
    { unfold minv, maxv; destruct (sgn t); clear - P2 MP E2; lia. }
    clear - H0 MB; lia. }
  rewrite fx_sub_eq by auto. replace (m - m / M * M) with (m mod M) by (clear - FM; lia).
  rewrite ovf_valid by auto. reflexivity.
Qed.

(** fmod on non-negative operands *)
Theorem fmod_pos a b : cr c = false -> valid c a = true -> valid c b = true -> 0 <= a -> 0 < b ->
  valid c (a * M / b) = true -> fx_fmod c a b = Ok (a mod b).
Proof.
  intros R Va Vb Ha Hb Vq. destruct mp_basic as (K & KP & P & B & F & M2 & MP & E2 & P2).
  unfold fx_fmod. rewrite fx_div_eq by (auto; clear - Hb; lia). fold M.
  rewrite Z.quot_div_nonneg by (auto; apply Z.mul_nonneg_nonneg; clear - Ha P; lia).
  rewrite valid_wrap by auto. cbn [bind].
  assert (Q0 : 0 <= a * M / b) by (apply Z.div_pos; auto; apply Z.mul_nonneg_nonneg; clear - Ha P; lia).
  rewrite floor_eq by auto. cbn [bind].
  assert (EN : a * M / b / M = a / b).
  { rewrite Z.div_div by (auto; clear - Hb; lia). rewrite Z.div_mul_cancel_r by (clear - Hb P; lia). reflexivity. }
  rewrite EN.
  set (n := a / b) in *.
  assert (N0 : 0 <= n) by (apply Z.div_pos; auto).
  assert (NB : b * n <= a) by (apply Z.mul_div_le; auto).
  assert (MIN0 : minv t <= 0) by (unfold minv; destruct (sgn t); clear - P2; lia).
  assert (Vn : valid c (n * M) = true).
  { apply in_range_iff. fold t. apply in_range_iff in Vq. fold t in Vq.
    assert (n * M <= a * M / b).
    { rewrite <- EN. pose proof (Z.mul_div_le (a * M / b) M P). clear - H0; lia. }
    assert (0 <= n * M) by (apply Z.mul_nonneg_nonneg; auto; clear - P; lia).
    clear - Vq H0 H1 MIN0; lia. }
  rewrite fx_mul_eq by auto. fold M. rewrite Z.mul_assoc, Z.div_mul by (clear - P; lia).
  assert (Vbn : valid c (b * n) = true).
  { apply in_range_iff. fold t. apply in_range_iff in Va. fold t in Va.
    assert (0 <= b * n) by (apply Z.mul_nonneg_nonneg; auto; clear - Hb; lia). clear - Va NB H0 MIN0; lia. }
  rewrite valid_wrap by auto. cbn [bind].
  rewrite fx_sub_eq by auto. rewrite Z.mod_eq by (clear - Hb; lia). fold n.
  apply ovf_valid; auto. apply in_range_iff. fold t. apply in_range_iff in Va. fold t in Va.
  assert (0 <= b * n) by (apply Z.mul_nonneg_nonneg; auto; clear - Hb; lia). clear - Va NB H0 MIN0; lia.
Qed.

End MP.
