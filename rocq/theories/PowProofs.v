(** Integer powers (C38, C39): modular exactness, termination. *)
From Coq Require Import ZArith Bool List Lia ZifyBool QArith Zquot.
From Verif Require Import Base Fixed Math Spec BaseLemmas SpecLemmas FixedLemmas CLemmas MathProofs.
Open Scope Z_scope.

(** ** the exponent's steps *)
Section EXPO.
  Variables (t : ity) (e : Z).
  Hypotheses (K : ity_ok t = true) (R : in_range t e = true).
  Let p := promote t.
  Lemma ex_p : ity_ok p = true. Proof. apply promote_ok; auto. Qed.
  Lemma ex_u : uac t int32 = p. Proof. apply uac_i32'; auto. Qed.
  Lemma ex_r : in_range p e = true. Proof. apply promote_range; auto. Qed.
  Lemma ex_s k : 0 <= k <= 127 -> in_range p k = true. Proof. apply in_range_small. apply ex_p. Qed.
  Lemma ex_eq0 : c_eq t int32 e 0 = (e =? 0).
  Proof. apply g_eq with p; [apply ex_p|apply ex_u|apply ex_r|apply ex_s; lia]. Qed.
  Lemma ex_lt0 : c_lt t int32 e 0 = (e <? 0).
  Proof. apply g_lt with p; [apply ex_p|apply ex_u|apply ex_r|apply ex_s; lia]. Qed.
  Lemma ex_half_t : in_range t (Z.quot e 2) = true.
  Proof.
    pose proof (quot_between e 2 ltac:(lia)) as Q. apply in_range_iff. apply in_range_iff in R.
    assert (minv t <= 0 <= maxv t).
    { pose proof (maxv_pos t K). unfold minv in *; destruct (sgn t); pose proof (proj2 (ity_ok_pow t K)); lia. }
    clear - R Q H. lia.
  Qed.
  Lemma ex_div : c_div t int32 e 2 = Ok (Z.quot e 2).
  Proof.
    apply g_div with p; [apply ex_p|apply ex_u|apply ex_r|apply ex_s; lia|discriminate|].
    apply promote_range; auto. apply ex_half_t.
  Qed.
  Lemma ex_rem : c_rem t int32 e 2 = Ok (Z.rem e 2).
  Proof.
    apply g_rem with p; [apply ex_p|apply ex_u|apply ex_r|apply ex_s; lia|discriminate|].
    apply promote_range; auto. apply ex_half_t.
  Qed.
  Lemma ex_rem0 : c_eq (uac t int32) int32 (Z.rem e 2) 0 = (Z.rem e 2 =? 0).
  Proof.
    rewrite ex_u. apply g_eq with p; [apply ex_p|apply uac_i32; auto| |apply ex_s; lia].
    apply promote_range; auto. apply in_range_iff. apply in_range_iff in R.
    pose proof (maxv_pos t K). pose proof (Z.rem_bound_abs e 2 ltac:(discriminate)).
    assert (0 <= e -> 0 <= Z.rem e 2) by (intro; apply Z.rem_nonneg; [discriminate|auto]).
    assert (e <= 0 -> Z.rem e 2 <= 0) by (intro; apply Z.rem_nonpos; [discriminate|auto]).
    assert (minv t <= 0) by (unfold minv; destruct (sgn t); pose proof (proj2 (ity_ok_pow t K)); lia).
    pose proof (Z.quot_rem e 2 ltac:(discriminate)).
    clear - R H H0 H1 H2 H3 H4. lia.
  Qed.
End EXPO.

Lemma ity_bits_le t x : ity_ok t = true -> in_range t x = true -> Z.abs x <= 2 ^ 128.
Proof.
  intros K R. apply in_range_iff in R. unfold minv, maxv in R.
  assert (B : 2 ^ bits t <= 2 ^ 128) by (apply Z.pow_le_mono_r; [lia|]; destruct (ity_ok_bits t K) as [E|[E|[E|[E|E]]]]; rewrite E; lia).
  pose proof (ity_ok_pow t K) as [E P]. destruct (sgn t); lia.
Qed.

(** ** the loop, one step *)
Lemma pow_loop_step fuel c t dv r i e : ity_ok t = true -> in_range t e = true -> e <> 0 ->
  pow_loop (S fuel) c t dv r i e =
  (let* r1 := (if Z.rem e 2 =? 0 then Ok r else if dv then fx_div_assign c r i else fx_mul_assign c r i) in
   let* i1 := fx_mul_assign c i i in
   pow_loop fuel c t dv r1 i1 (Z.quot e 2)).
Proof.
  intros K R N. cbn [pow_loop]. rewrite ex_eq0 by auto. replace (e =? 0) with false by (symmetry; apply Z.eqb_neq; auto).
  rewrite ex_rem by auto. cbn [bind]. rewrite ex_rem0 by auto. rewrite ex_div by auto. cbn [bind].
  rewrite wrap_id by (auto; apply ex_half_t; auto).
  destruct (Z.rem e 2 =? 0); reflexivity.
Qed.
Lemma pow_loop_0 fuel c t dv r i : ity_ok t = true -> pow_loop fuel c t dv r i 0 = Ok r.
Proof. intros K. destruct fuel; cbn [pow_loop]; rewrite ex_eq0; auto; apply in_range_small; auto; lia. Qed.

Lemma plain_mul_assign c x y : plain (fx_mul_assign c x y). Proof. apply plain_fx_mul. Qed.
Lemma plain_div_assign c x y : plain (fx_div_assign c x y). Proof. apply plain_fx_div. Qed.

(** the loop always ends: fuel is never exhausted and nothing is thrown *)
Lemma pow_loop_plain c t dv : ity_ok t = true -> forall (n fuel : nat) r i e, (n <= fuel)%nat ->
  in_range t e = true -> Z.abs e < 2 ^ Z.of_nat n -> plain (pow_loop fuel c t dv r i e).
Proof.
  intros K. induction n as [|n IH]; intros fuel r i e Hf R B.
  - change (2 ^ Z.of_nat 0) with 1 in B. assert (e = 0) by lia. subst e. rewrite pow_loop_0 by auto. exact I.
  - destruct fuel as [|fuel]; [lia|]. destruct (Z.eq_dec e 0) as [->|N].
    + rewrite pow_loop_0 by auto. exact I.
    + rewrite pow_loop_step by auto. apply plain_bind.
      { destruct (Z.rem e 2 =? 0); [exact I|]. destruct dv; [apply plain_div_assign|apply plain_mul_assign]. }
      intro r1. apply plain_bind; [apply plain_mul_assign|]. intro i1.
      apply IH; [lia|apply ex_half_t; auto|].
      rewrite Nat2Z.inj_succ, Z.pow_succ_r in B by lia.
      rewrite <- Z.quot_abs by lia. change (Z.abs 2) with 2. rewrite Z.quot_div_nonneg by lia.
      apply Z.div_lt_upper_bound; lia.
Qed.

Theorem pow_int_plain c t b e : ity_ok t = true -> in_range t e = true -> plain (fx_pow_int c t b e).
Proof.
  intros K R. unfold fx_pow_int. apply plain_bind; [apply plain_fx_of_int|]. intro z.
  destruct (fx_eq c b z). { destruct (c_eq t int32 e 0); apply plain_fx_of_int. }
  apply plain_bind; [apply plain_fx_of_int|]. intro o.
  assert (B : Z.abs e < 2 ^ Z.of_nat 129).
  { pose proof (ity_bits_le t e K R). change (2 ^ Z.of_nat 129) with (2 * 2 ^ 128). pose proof (pow2_pos 128 ltac:(lia)). lia. }
  destruct (c_lt t int32 e 0); apply (pow_loop_plain c t _ K 129); auto; lia.
Qed.

(** ** non-negative exponents: total *)
Section MUL.
Variable c : cfg.
Hypotheses (W : wf c = true) (NR : cr c = false).
Let M := 2 ^ cf c.

Lemma mul_assign_eq x y : valid c x = true -> valid c y = true ->
  fx_mul_assign c x y = Ok (wrap (ct c) (x * y / M)).
Proof. intros. exact (fx_mul_eq c x y W NR H H0). Qed.

Lemma pow_loop_total t : ity_ok t = true -> forall (n fuel : nat) r i e, (n <= fuel)%nat ->
  in_range t e = true -> 0 <= e < 2 ^ Z.of_nat n -> valid c r = true -> valid c i = true ->
  exists m, pow_loop fuel c t false r i e = Ok m /\ valid c m = true.
Proof.
  intros K. induction n as [|n IH]; intros fuel r i e Hf R B Vr Vi.
  - change (2 ^ Z.of_nat 0) with 1 in B. assert (e = 0) by lia. subst e. rewrite pow_loop_0 by auto. exists r; auto.
  - destruct fuel as [|fuel]; [lia|]. destruct (Z.eq_dec e 0) as [->|N].
    + rewrite pow_loop_0 by auto. exists r; auto.
    + rewrite pow_loop_step by auto.
      assert (HH : Z.quot e 2 = e / 2) by (apply Z.quot_div_nonneg; lia).
      assert (HB : 0 <= Z.quot e 2 < 2 ^ Z.of_nat n).
      { rewrite HH. rewrite Nat2Z.inj_succ, Z.pow_succ_r in B by lia. split; [apply Z.div_pos; lia|apply Z.div_lt_upper_bound; lia]. }
      rewrite !mul_assign_eq by auto.
      destruct (Z.rem e 2 =? 0); cbn [bind]; apply IH; auto; try lia; try (apply ex_half_t; auto);
        try (apply wrap_range; apply wf_ct; auto); apply valid_wrap_valid; auto.
Qed.

Lemma fx_of_int_valid n : exists v, fx_of_int c n = Ok v /\ valid c v = true /\ v = wrap (ct c) (n * M).
Proof using W. clear NR. exists (wrap (ct c) (n * M)). split; [apply fx_of_int_eq; auto|]. split; [apply valid_wrap_valid; auto|reflexivity]. Qed.

Lemma zero_eq : fx_of_int c 0 = Ok 0.
Proof using W. clear NR. rewrite fx_of_int_eq by auto. rewrite Z.mul_0_l. rewrite valid_wrap; auto. apply in_range_small; [apply wf_ct; auto|lia]. Qed.

Lemma fx_eq_eq x y : valid c x = true -> valid c y = true -> fx_eq c x y = (x =? y).
Proof using W. clear NR.
  intros Vx Vy. unfold fx_eq, c_eq. cbv zeta. rewrite uac_refl, !wrap_p by auto. reflexivity.
Qed.
Lemma fx_lt_eq x y : valid c x = true -> valid c y = true -> fx_lt c x y = (x <? y).
Proof using W. clear NR.
  intros Vx Vy. unfold fx_lt, fx_cmp. rewrite uac_refl, !wrap_p by auto. unfold Z.ltb. destruct (x ?= y); reflexivity.
Qed.
Lemma fx_gt_eq x y : valid c x = true -> valid c y = true -> fx_gt c x y = (y <? x).
Proof using W. clear NR.
  intros Vx Vy. unfold fx_gt, fx_cmp. rewrite uac_refl, !wrap_p by auto. rewrite Z.ltb_antisym. unfold Z.leb.
  destruct (x ?= y); reflexivity.
Qed.
Lemma fx_ge_eq x y : valid c x = true -> valid c y = true -> fx_ge c x y = (y <=? x).
Proof using W. clear NR.
  intros Vx Vy. unfold fx_ge, fx_cmp. rewrite uac_refl, !wrap_p by auto. rewrite Z.leb_antisym. unfold Z.ltb.
  destruct (x ?= y); reflexivity.
Qed.
Lemma fx_le_eq x y : valid c x = true -> valid c y = true -> fx_le c x y = (x <=? y).
Proof using W. clear NR.
  intros Vx Vy. unfold fx_le, fx_cmp. rewrite uac_refl, !wrap_p by auto. unfold Z.leb. destruct (x ?= y); reflexivity.
Qed.
Lemma v0 : valid c 0 = true. Proof using W. clear NR. apply in_range_small; [apply wf_ct; auto|lia]. Qed.

Lemma abs_lt_pow129 t e : ity_ok t = true -> in_range t e = true -> Z.abs e < 2 ^ Z.of_nat 129.
Proof.
  intros K R. pose proof (ity_bits_le t e K R). change (2 ^ Z.of_nat 129) with (2 * 2 ^ 128).
  pose proof (pow2_pos 128 ltac:(lia)). lia.
Qed.

Theorem pow_int_total t b e : ity_ok t = true -> in_range t e = true -> valid c b = true -> 0 <= e ->
  exists m, fx_pow_int c t b e = Ok m /\ valid c m = true.
Proof.
  intros K R V E. unfold fx_pow_int. rewrite zero_eq. cbn [bind]. rewrite fx_eq_eq by (auto using v0).
  destruct (b =? 0).
  { destruct (c_eq t int32 e 0); [destruct (fx_of_int_valid 1) as (v & H & Vv & _); exists v; auto|exists 0; auto using v0]. }
  destruct (fx_of_int_valid 1) as (o & H & Vo & _). rewrite H. cbn [bind].
  rewrite ex_lt0 by auto. replace (e <? 0) with false by lia.
  pose proof (abs_lt_pow129 t e K R). apply (pow_loop_total t K 129); auto; lia.
Qed.

(** ** integer bases: exact modulo the store width *)
Lemma mul_int_mod a b : 
  wrap (ct c) (wrap (ct c) (a * M) * wrap (ct c) (b * M) / M) = wrap (ct c) (a * b * M).
Proof.
  pose proof (wf_ct c W) as K. pose proof (cf_pos c W) as P. fold M in P.
  destruct (wrap_cong (ct c) (a * M) K) as [k ->]. destruct (wrap_cong (ct c) (b * M) K) as [l ->].
  destruct (wf_bnd c W) as (B & _ & _ & _ & _ & F).
  set (w := bits (ct c)) in *. assert (E : 2 ^ w = 2 ^ (w - cf c) * M).
  { unfold M. rewrite <- Z.pow_add_r by lia. f_equal. lia. }
  set (N := 2 ^ (w - cf c)) in *.
  replace ((a * M + k * 2 ^ w) * (b * M + l * 2 ^ w) / M) with (a * b * M + (a * l + k * b + k * l * N) * 2 ^ w).
  - apply wrap_add_mult; auto.
  - symmetry. rewrite E.
    replace ((a * M + k * (N * M)) * (b * M + l * (N * M))) with ((a * b * M + (a * l + k * b + k * l * N) * (N * M)) * M) by ring.
    apply Z.div_mul. lia.
Qed.

Lemma pow_loop_int t : ity_ok t = true -> forall (n fuel : nat) a b e, (n <= fuel)%nat ->
  in_range t e = true -> 0 <= e < 2 ^ Z.of_nat n ->
  pow_loop fuel c t false (wrap (ct c) (a * M)) (wrap (ct c) (b * M)) e = Ok (wrap (ct c) (a * b ^ e * M)).
Proof.
  intros K. induction n as [|n IH]; intros fuel a b e Hf R B.
  - change (2 ^ Z.of_nat 0) with 1 in B. assert (e = 0) by lia. subst e. rewrite pow_loop_0 by auto.
    f_equal. f_equal. rewrite Z.pow_0_r. ring.
  - destruct fuel as [|fuel]; [lia|]. destruct (Z.eq_dec e 0) as [->|N].
    + rewrite pow_loop_0 by auto. f_equal. f_equal. rewrite Z.pow_0_r. ring.
    + rewrite pow_loop_step by auto.
      assert (HH : Z.quot e 2 = e / 2) by (apply Z.quot_div_nonneg; lia).
      assert (HB : 0 <= Z.quot e 2 < 2 ^ Z.of_nat n).
      { rewrite HH. rewrite Nat2Z.inj_succ, Z.pow_succ_r in B by lia. split; [apply Z.div_pos; lia|apply Z.div_lt_upper_bound; lia]. }
      rewrite !mul_assign_eq by (apply valid_wrap_valid; auto). rewrite !mul_int_mod.
      pose proof (Z.quot_rem e 2 ltac:(discriminate)) as QR.
      pose proof (Z.rem_bound_pos e 2 ltac:(lia) ltac:(lia)) as RB.
      assert (SQ : (b * b) ^ Z.quot e 2 = b ^ (2 * Z.quot e 2)).
      { rewrite Z.pow_mul_r by lia. rewrite Z.pow_2_r. reflexivity. }
      destruct (Z.eqb_spec (Z.rem e 2) 0) as [Z0|NZ]; cbn [bind]; rewrite IH by (auto; try lia; apply ex_half_t; auto); f_equal; f_equal; rewrite SQ.
      * rewrite QR at 2. rewrite Z0, Z.add_0_r. reflexivity.
      * assert (E1 : Z.rem e 2 = 1) by lia. rewrite QR at 2. rewrite E1, Z.pow_add_r, Z.pow_1_r by lia. ring.
Qed.

Theorem pow_int_base t B e : ity_ok t = true -> in_range t e = true -> 0 <= e -> valid c (B * M) = true ->
  fx_pow_int c t (B * M) e = Ok (wrap (ct c) (B ^ e * M)).
Proof.
  intros K R E V. pose proof (cf_pos c W) as P. fold M in P.
  unfold fx_pow_int. rewrite zero_eq. cbn [bind]. rewrite fx_eq_eq by (auto using v0).
  rewrite ex_eq0, ex_lt0 by auto. replace (e <? 0) with false by lia.
  destruct (Z.eqb_spec (B * M) 0) as [Z0|NZ].
  - assert (B = 0) by nia. subst B. destruct (Z.eqb_spec e 0) as [->|].
    + rewrite fx_of_int_eq by auto. reflexivity.
    + rewrite Z.pow_0_l by lia. rewrite Z.mul_0_l, valid_wrap; auto using v0.
  - rewrite fx_of_int_eq by auto. cbn [bind].
    pose proof (pow_loop_int t K 129 130 1 B e ltac:(lia) R) as H. fold M.
    rewrite (valid_wrap c (B * M)) in H by auto. rewrite H.
    + f_equal. f_equal. ring.
    + pose proof (abs_lt_pow129 t e K R). lia.
Qed.

(** pow(b, 0) = 1 and pow(b, 1) = b *)
Theorem pow_0 t b : ity_ok t = true -> valid c b = true -> fx_pow_int c t b 0 = fx_of_int c 1.
Proof using W. clear NR.
  intros K V. assert (R : in_range t 0 = true) by (apply in_range_small; auto; lia).
  unfold fx_pow_int. rewrite zero_eq. cbn [bind]. rewrite fx_eq_eq by (auto using v0). rewrite ex_eq0, ex_lt0 by auto.
  cbn [Z.eqb Z.ltb Z.compare]. destruct (b =? 0); [reflexivity|].
  destruct (fx_of_int_valid 1) as (o & -> & _ & _). cbn [bind]. apply pow_loop_0; auto.
Qed.
Theorem pow_1 t b : ity_ok t = true -> valid c b = true -> valid c M = true -> fx_pow_int c t b 1 = Ok b.
Proof.
  intros K V V1. assert (R : in_range t 1 = true) by (apply in_range_small; auto; lia).
  pose proof (cf_pos c W) as P. fold M in P.
  unfold fx_pow_int. rewrite zero_eq. cbn [bind]. rewrite fx_eq_eq by (auto using v0). rewrite ex_eq0, ex_lt0 by auto.
  cbn [Z.eqb Z.ltb Z.compare]. destruct (Z.eqb_spec b 0) as [->|]; [reflexivity|].
  rewrite fx_of_int_eq by auto. fold M. rewrite Z.mul_1_l, valid_wrap by auto. cbn [bind].
  rewrite pow_loop_step by (auto; lia). change (Z.rem 1 2 =? 0) with false. cbv iota.
  rewrite !mul_assign_eq by auto. cbn [bind]. change (Z.quot 1 2) with 0. rewrite pow_loop_0 by auto.
  rewrite Z.mul_comm, Z.div_mul by lia. rewrite valid_wrap; auto.
Qed.

(** ** negative exponents of an integer base whose power is representable *)
Lemma div_assign_eq x y : valid c x = true -> valid c y = true -> y <> 0 ->
  fx_div_assign c x y = Ok (wrap (ct c) (Z.quot (x * M) y)).
Proof. intros. exact (fx_div_eq c x y W NR H H0 H1). Qed.

Lemma quot_quot a b d : b <> 0 -> d <> 0 -> Z.quot (Z.quot a b) d = Z.quot a (b * d).
Proof. intros. apply Z.quot_quot; auto. Qed.

Lemma pow_abs_le B k n : B <> 0 -> 0 <= k <= n -> Z.abs (B ^ k) <= Z.abs (B ^ n).
Proof.
  intros HB H. rewrite !Z.abs_pow. apply Z.pow_le_mono_r; lia.
Qed.

Lemma pow_loop_neg t : ity_ok t = true -> valid c M = true -> forall (n fuel : nat) r B e, (n <= fuel)%nat ->
  in_range t e = true -> - 2 ^ Z.of_nat n < e <= 0 -> Z.abs r <= M -> (sgn (ct c) = false -> 0 < B /\ 0 <= r) ->
  B <> 0 -> (forall k, 0 < k <= - e -> valid c (B ^ k * M) = true) ->
  pow_loop fuel c t true r (wrap (ct c) (B * M)) e = Ok (Z.quot r (B ^ (- e))).
Proof.
  intros K V1. pose proof (cf_pos c W) as P. fold M in P.
  assert (VM : forall r, Z.abs r <= M -> (sgn (ct c) = false -> 0 <= r) -> valid c r = true).
  { intros r A U. apply in_range_iff. apply in_range_iff in V1. unfold minv, maxv in *.
    destruct (sgn (ct c)); [clear - A V1; lia|]. specialize (U eq_refl). clear - U A V1; lia. }
  induction n as [|n IH]; intros fuel r B e Hf R HB Ar HU N0 HV.
  - change (2 ^ Z.of_nat 0) with 1 in HB. assert (e = 0) by lia. subst e. rewrite pow_loop_0 by auto.
    cbn [Z.opp]. rewrite Z.pow_0_r, Z.quot_1_r. reflexivity.
  - destruct fuel as [|fuel]; [lia|]. destruct (Z.eq_dec e 0) as [->|N].
    + rewrite pow_loop_0 by auto. cbn [Z.opp]. rewrite Z.pow_0_r, Z.quot_1_r. reflexivity.
    + rewrite pow_loop_step by auto.
      assert (Vi : valid c (B * M) = true) by (specialize (HV 1 ltac:(lia)); rewrite Z.pow_1_r in HV; exact HV).
      assert (QR : e = 2 * Z.quot e 2 + Z.rem e 2) by (apply Z.quot_rem; discriminate).
      assert (RB : Z.rem e 2 = 0 \/ Z.rem e 2 = -1).
      { pose proof (Z.rem_bound_abs e 2 ltac:(discriminate)). pose proof (Z.rem_nonpos e 2 ltac:(discriminate) ltac:(lia)). lia. }
      assert (Rh : in_range t (Z.quot e 2) = true) by (apply ex_half_t; auto).
      set (h := Z.quot e 2) in *. set (d := Z.rem e 2) in *.
      assert (HB' : - 2 ^ Z.of_nat n < h <= 0).
      { rewrite Nat2Z.inj_succ, Z.pow_succ_r in HB by lia. clear - HB QR RB N. lia. }
      assert (P0 : M <> 0) by (clear - P; lia).
      assert (NBM : B * M <> 0) by (clear - N0 P0; nia).
      assert (Aq : Z.abs (Z.quot r B) <= M).
      { rewrite <- Z.quot_abs by auto. rewrite Z.quot_div_nonneg by (clear - N0; lia).
        apply Z.div_le_upper_bound; [clear - N0; lia|]. clear - N0 Ar P; nia. }
      assert (Uq : sgn (ct c) = false -> 0 <= Z.quot r B).
      { intro S. destruct (HU S). apply Z.quot_pos; auto. }
      assert (Vr : valid c r = true) by (apply VM; [auto|intro S; apply HU; auto]).
      rewrite (valid_wrap c (B * M)) at 1 by auto.
      rewrite div_assign_eq by auto.
      rewrite Z.quot_mul_cancel_r by auto. rewrite (valid_wrap c (Z.quot r B)) by auto.
      rewrite mul_assign_eq by (apply valid_wrap_valid; auto). rewrite mul_int_mod.
      assert (REC : forall r', Z.abs r' <= M -> (sgn (ct c) = false -> 0 <= r') ->
        pow_loop fuel c t true r' (wrap (ct c) (B * B * M)) h = Ok (Z.quot r' (B ^ (- (2 * h))))).
      { intros r' A' U'.
        assert (h0 : 0 <= - h) by (clear - HB'; lia). assert (t0 : 0 <= 2) by discriminate.
        rewrite IH; auto.
        - replace (- (2 * h)) with (2 * - h) by ring. rewrite Z.pow_mul_r by auto. rewrite Z.pow_2_r. reflexivity.
        - clear - Hf; lia.
        - intro S. destruct (HU S) as [U1 _]. split; [clear - U1; nia|auto].
        - clear - N0; nia.
        - intros k Hk. assert (k0 : 0 <= k) by (clear - Hk; lia).
          rewrite <- Z.pow_2_r, <- Z.pow_mul_r by auto. apply HV. clear - Hk QR RB. lia. }
      destruct (Z.eqb_spec d 0) as [D0|D1]; cbn [bind]; rewrite REC; auto.
      * f_equal. f_equal. f_equal. clear - QR D0. lia.
      * intro Hs. apply HU; auto.
      * assert (h0 : 0 <= - (2 * h)) by (clear - HB'; lia).
        rewrite Z.quot_quot by (auto; apply Z.pow_nonzero; auto). f_equal. f_equal.
        rewrite <- (Z.pow_1_r B) at 1. rewrite <- Z.pow_add_r by (auto; discriminate). f_equal. clear - QR RB D1. lia.
Qed.

Theorem pow_int_neg t B n : ity_ok t = true -> in_range t (- n) = true -> 0 < n -> B <> 0 ->
  valid c M = true -> valid c (B * M) = true -> valid c (B ^ n * M) = true ->
  fx_pow_int c t (B * M) (- n) = Ok (Z.quot M (B ^ n)).
Proof.
  intros K R N B0 V1 VB VN. pose proof (cf_pos c W) as P. fold M in P.
  unfold fx_pow_int. rewrite zero_eq. cbn [bind]. rewrite fx_eq_eq by (auto using v0).
  rewrite ex_lt0 by auto. replace (- n <? 0) with true by (symmetry; apply Z.ltb_lt; clear - N; lia).
  replace (B * M =? 0) with false by (symmetry; apply Z.eqb_neq; clear - P B0; nia).
  rewrite fx_of_int_eq by auto. fold M. rewrite Z.mul_1_l, valid_wrap by auto. cbn [bind].
  rewrite <- (valid_wrap c (B * M)) by auto.
  rewrite (pow_loop_neg t K V1 129 130); auto; try lia.
  - rewrite Z.opp_involutive. reflexivity.
  - pose proof (abs_lt_pow129 t (- n) K R). lia.
  - intro S. apply in_range_iff in VB. unfold minv in VB. rewrite S in VB. nia.
  - rewrite Z.opp_involutive. intros k Hk. pose proof (pow_abs_le B k n B0 ltac:(lia)) as A.
    destruct (Z.eq_dec (B ^ k) (B ^ n)) as [E|NE]; [rewrite E; auto|].
    destruct (Z.eq_dec B 1) as [->|N1]; [rewrite Z.pow_1_l by lia; rewrite Z.mul_1_l; auto|].
    destruct (Z.eq_dec B (-1)) as [->|N2].
    { assert (Z.abs ((-1) ^ k) = 1). { rewrite Z.abs_pow. change (Z.abs (-1)) with 1. apply Z.pow_1_l; lia. }
      assert ((-1) ^ k = 1 \/ (-1) ^ k = -1) as [->| ->] by lia; rewrite ?Z.mul_1_l; auto. }
    destruct (Z.eq_dec k n) as [->|NK]; [auto|].
    assert (A2 : Z.abs (B ^ k) < Z.abs (B ^ n)).
    { rewrite !Z.abs_pow. apply Z.pow_lt_mono_r; lia. }
    apply in_range_iff in VN, VB. apply in_range_iff. unfold minv, maxv in *.
    destruct (sgn (ct c)) eqn:S.
    + assert (Z.abs (B ^ k) * M < Z.abs (B ^ n) * M) by nia.
      assert (Z.abs (B ^ k * M) < Z.abs (B ^ n * M)) by (rewrite !Z.abs_mul, (Z.abs_eq M) by lia; auto).
      lia.
    + assert (0 < B) by nia. assert (0 < B ^ k) by (apply Z.pow_pos_nonneg; lia).
      assert (0 < B ^ n) by (apply Z.pow_pos_nonneg; lia). nia.
Qed.
End MUL.

Theorem pow_int_terminates c t b e : ity_ok t = true -> in_range t e = true ->
  fx_pow_int c t b e = UB \/ exists m, fx_pow_int c t b e = Ok m.
Proof.
  intros K R. pose proof (pow_int_plain c t b e K R) as H. destruct (fx_pow_int c t b e); eauto; destruct H.
Qed.
