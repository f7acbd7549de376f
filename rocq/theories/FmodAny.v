(** fmod for operands of either sign. *)
From Coq Require Import ZArith QArith Qabs Lia Bool.
From Verif Require Import Base Fixed Math Spec BaseLemmas SpecLemmas FixedLemmas ArithProofs MathProofs MathThms.
Open Scope Z_scope.

Lemma fmod_core_pos M a b : 0 < M -> 0 < b -> let k := Z.quot (a * M) b / M in let r := a - b * k in
  r < b /\ - b < r * M /\ (0 <= a -> 0 <= r).
Proof.
  intros PM PB k r. set (t := Z.quot (a * M) b) in *.
  pose proof (Z.div_mod t M ltac:(lia)) as DM. fold k in DM. pose proof (Z.mod_pos_bound t M PM) as MB.
  destruct (Z.le_gt_cases 0 a) as [A|A].
  - assert (T : k = a / b).
    { unfold k, t. rewrite Z.quot_div_nonneg by nia. rewrite Z.div_div by lia. rewrite Z.div_mul_cancel_r by lia. reflexivity. }
    unfold r. rewrite T. pose proof (Z.div_mod a b ltac:(lia)). pose proof (Z.mod_pos_bound a b PB). split; [lia|]. split; [nia|lia].
  - assert (T : t * b - b < a * M <= t * b).
    { pose proof (Z.quot_rem' (a * M) b) as Q. fold t in Q. pose proof (Z.rem_nonpos (a * M) b ltac:(lia) ltac:(nia)).
      pose proof (Z.rem_bound_abs (a * M) b ltac:(lia)). lia. }
    clearbody t k. unfold r. split; [|split; [|lia]]; nia.
Qed.

Lemma fmod_core M a b : 0 < M -> b <> 0 -> let k := Z.quot (a * M) b / M in let r := a - b * k in
  r * Z.sgn b < Z.abs b /\ - Z.abs b < r * Z.sgn b * M /\ (0 <= a * Z.sgn b -> 0 <= r * Z.sgn b).
Proof.
  intros PM N k r. destruct (Z.lt_ge_cases 0 b) as [B|B].
  - pose proof (fmod_core_pos M a b PM B) as C. cbv zeta in C. fold k in C. fold r in C.
    rewrite Z.sgn_pos, Z.abs_eq, !Z.mul_1_r by lia. exact C.
  - pose proof (fmod_core_pos M (- a) (- b) PM ltac:(lia)) as C. cbv zeta in C.
    replace (Z.quot (- a * M) (- b)) with (Z.quot (a * M) b) in C by (rewrite Z.mul_opp_l; symmetry; apply Z.quot_opp_opp; auto). fold k in C. rewrite Z.sgn_neg, Z.abs_neq by lia. unfold r. lia.
Qed.

Lemma fmod_any c a b q : wf c = true -> cr c = false -> valid c a = true -> valid c b = true -> b <> 0 ->
  is_trunc (cf c) (qval (cf c) a / qval (cf c) b) q -> fits (bits (ct c)) (sgn (ct c)) q ->
  (0 <= qval (cf c) q)%Q \/ (int_bit c /\ fits (bits (ct c)) (sgn (ct c)) (q - (2 ^ cf c - 1))) ->
  fits (bits (ct c)) (sgn (ct c)) (Z.abs a + Z.abs b) ->
  exists r k, fx_fmod c a b = Ok r /\ valid c r = true /\
    (qval (cf c) a == inject_Z k * qval (cf c) b + qval (cf c) r)%Q /\
    (- qval (cf c) 1 < qval (cf c) r / qval (cf c) b)%Q /\ (qval (cf c) r / qval (cf c) b < 1)%Q /\
    ((0 <= qval (cf c) a / qval (cf c) b)%Q -> (0 <= qval (cf c) r / qval (cf c) b)%Q).
Proof.
  intros W NR Va Vb N T FQ FL FS. pose proof (cf_pos c W) as P. pose proof (cf_ge0 c W) as F0.
  apply is_trunc_div in T; auto. assert (Vq : valid c q = true) by (apply fits_iff; exact FQ).
  pose proof (fmod_core (2 ^ cf c) a b P N) as C. cbv zeta in C. rewrite <- T in C. set (k := q / 2 ^ cf c) in *. set (r := a - b * k) in *.
  destruct C as (C1 & C2 & C3).
  assert (D' : 0 <= q \/ (q_only c = false /\ valid c (q - (2 ^ cf c - 1)) = true)).
  { destruct FL as [D|[D1 D2]]; [left; apply qval_sgn in D; auto|right; split; [apply int_bit_q; auto|apply fits_iff; auto]]. }
  assert (FK : exists i, fx_floor c q = Ok i /\ valid c i = true /\ i = k * 2 ^ cf c).
  { destruct (floor_thm c q k W Vq) as (i & E & Vi & Ei); auto; [apply is_floor_int; auto|].
    exists i. split; auto. split; auto. apply (qval_eq (cf c)). rewrite Ei. symmetry. apply qval_int; auto. }
  destruct FK as (i & EI & VI & ->).
  assert (AR : Z.abs r < Z.abs b).
  { assert (G : Z.abs r = Z.abs (r * Z.sgn b)) by (rewrite Z.abs_mul; assert (Z.abs (Z.sgn b) = 1) as -> by (clear - N; lia); clear; lia). rewrite G.
    clear - C1 C2 P N. destruct (Z.le_gt_cases 0 (r * Z.sgn b)); [lia|]. assert (Z.abs b < Z.abs b * 2 ^ cf c \/ 2 ^ cf c = 1) by nia. nia. }
  assert (MM : minv (ct c) <= 0 /\ (sgn (ct c) = true -> minv (ct c) = - maxv (ct c) - 1)).
  { unfold minv, maxv. pose proof (proj2 (ity_ok_pow _ (wf_ct c W))). clear - H. destruct (sgn (ct c)); split; try lia; discriminate. }
  apply fits_iff in FS. pose proof Va as Va'. pose proof Vb as Vb'. apply in_range_iff in FS, Va', Vb'.
  assert (SG : sgn (ct c) = false -> 0 <= b * k <= a).
  { intros S. assert (0 <= a /\ 0 < b) as [A B] by (unfold minv in Va', Vb'; rewrite S in Va', Vb'; clear - Va' Vb' N; lia).
    rewrite Z.sgn_pos in C3 by auto. assert (0 <= k); [|clear - H C3 A B r; unfold r in C3; rewrite !Z.mul_1_r in C3; specialize (C3 A); split; [apply Z.mul_nonneg_nonneg|]; lia].
    unfold k. rewrite T. clear - A B P. rewrite Z.quot_div_nonneg by nia. apply Z.div_pos; [|lia]. apply Z.div_pos; nia. }
  assert (VP : valid c (b * k) = true).
  { apply in_range_iff. destruct (sgn (ct c)) eqn:S.
    - destruct MM as [_ MM]. specialize (MM eq_refl). unfold r in AR. clear - MM AR FS. lia.
    - specialize (SG eq_refl). clear - MM SG Va'. lia. }
  assert (VR : valid c r = true).
  { apply in_range_iff. destruct (sgn (ct c)) eqn:S.
    - destruct MM as [_ MM]. specialize (MM eq_refl). clear - MM AR FS. lia.
    - specialize (SG eq_refl). unfold r. clear - MM SG Va'. lia. }
  exists r, k. split; [|split; [exact VR|]].
  { unfold fx_fmod. rewrite fx_div_eq by auto. rewrite <- T, valid_wrap by auto. cbn [bind]. rewrite EI. cbn [bind].
    rewrite fx_mul_eq by auto. rewrite Z.mul_assoc, Z.div_mul by (clear - P; lia). rewrite valid_wrap by auto. cbn [bind].
    rewrite fx_sub_eq by auto. fold r. apply ovf_valid; auto. }
  split.
  { rewrite (qval_mul_int (cf c) k b), qval_plus. apply qval_eq. unfold r. clear. lia. }
  rewrite !qval_div by auto. unfold qval, Qlt, Qle, Qopp; cbn [Qnum Qden]. rewrite pow2p_pos, Z2Pos.id by (clear - N F0; lia).
  clear - C1 C2 C3 P. split; [lia|]. split; lia.
Qed.
