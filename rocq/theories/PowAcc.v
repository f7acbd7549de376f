(** Accuracy of integer powers of bases in [-1, 1]. *)
From Coq Require Import ZArith QArith Qabs Qpower Lia Lqa Bool.
From Verif Require Import Base Fixed Math Spec BaseLemmas SpecLemmas FixedLemmas CLemmas MathProofs PowProofs.
Open Scope Z_scope.

Lemma Qabs1_mul x y k : (Qabs x <= 1)%Q -> (Qabs y <= k)%Q -> (Qabs (x * y) <= k)%Q.
Proof.
  intros A B. rewrite Qabs_Qmult. pose proof (Qabs_nonneg x). pose proof (Qabs_nonneg y).
  assert (Qabs x * Qabs y <= 1 * Qabs y)%Q by (apply Qmult_le_compat_r; auto). lra.
Qed.
Lemma Qabs_le_iff x k : (Qabs x <= k)%Q <-> (- k <= x /\ x <= k)%Q.
Proof. apply Qabs_Qle_condition. Qed.

(** one floored product *)
Lemma floor_mul_err f x y a b p q u m : (0 <= p)%Q -> (0 <= q)%Q -> u = qval f 1 -> (Qabs (qval f x) <= 1)%Q -> (Qabs b <= 1)%Q ->
  (Qabs (qval f x - a) <= p * u)%Q -> (Qabs (qval f y - b) <= q * u)%Q -> is_floor f (qval f x * qval f y) m ->
  (Qabs (qval f m - a * b) <= (p + q + 1) * u)%Q.
Proof.
  intros P Q U X B A1 A2 [L H].
  assert (S : (qval f (m + 1) == qval f m + u)%Q).
  { subst u. unfold qval, Qeq, Qplus. cbn [Qnum Qden]. rewrite Pos2Z.inj_mul. ring. }
  assert (T1 := Qabs1_mul _ _ _ X A2). assert (T2 := Qabs1_mul _ _ _ B A1).
  apply Qabs_le_iff in T1. apply Qabs_le_iff in T2. apply Qabs_le_iff.
  assert (E : (qval f x * qval f y - a * b == qval f x * (qval f y - b) + b * (qval f x - a))%Q) by ring.
  set (xy := (qval f x * qval f y)%Q) in *. set (z1 := (qval f x * (qval f y - b))%Q) in *. set (z2 := (b * (qval f x - a))%Q) in *.
  set (ab := (a * b)%Q) in *. split; lra.
Qed.

Lemma Qpow_ge1 b n : (1 <= b)%Q -> 0 <= n -> (1 <= b ^ n)%Q.
Proof.
  intros B H. pattern n. apply natlike_ind; auto; [vm_compute; congruence|].
  intros x Hx IH. rewrite <- Z.add_1_r, Qpower_plus' by lia. simpl (b ^ 1)%Q.
  assert (1 * 1 <= b ^ x * b)%Q by (apply Qmult_le_compat_nonneg; split; auto; lra). lra.
Qed.
Lemma Qpow_S b n : 0 <= n -> (b ^ (n + 1) == b ^ n * b)%Q.
Proof. intros. rewrite Qpower_plus' by lia. reflexivity. Qed.

Section POW.
Variable c : cfg.
Hypotheses (W : wf c = true) (NR : cr c = false) (SG : sgn (ct c) = true -> cf c <= bits (ct c) - 2).
Let M := 2 ^ cf c.
Let u := qval (cf c) 1.

Lemma f0 : 0 <= cf c. Proof using All. destruct (wf_bnd c W) as (_ & _ & _ & _ & _ & F). lia. Qed.
Lemma qabs1 x : (Qabs (qval (cf c) x) <= 1)%Q <-> Z.abs x <= M.
Proof using All.
  unfold qval, Qabs, Qle. simpl. rewrite pow2p_pos by apply f0. fold M. lia.
Qed.
Lemma one_valid : valid c M = true.
Proof using All. unfold valid, M. apply one_range; auto. Qed.
Lemma unit_valid x : Z.abs x <= M -> (sgn (ct c) = false -> 0 <= x) -> valid c x = true.
Proof using All.
  intros A B. pose proof one_valid as V. unfold valid, in_range, minv, maxv in *.
  destruct (sgn (ct c)); [|specialize (B eq_refl)]; lia.
Qed.
Lemma floor_unit x y : Z.abs x <= M -> Z.abs y <= M -> Z.abs (x * y / M) <= M.
Proof using All.
  intros A B. pose proof (cf_pos c W) as P. fold M in P.
  assert (- (M * M) <= x * y <= M * M) by nia.
  assert (- M <= x * y / M) by (apply Z.div_le_lower_bound; lia).
  assert (x * y / M <= M) by (apply Z.div_le_upper_bound; lia). lia.
Qed.

Lemma mul_unit x y : valid c x = true -> valid c y = true -> Z.abs x <= M -> Z.abs y <= M ->
  fx_mul_assign c x y = Ok (x * y / M) /\ valid c (x * y / M) = true.
Proof using All.
  intros Vx Vy A B. assert (V : valid c (x * y / M) = true).
  { apply unit_valid; [apply floor_unit; auto|]. intros S. pose proof (cf_pos c W) as P. fold M in P.
    unfold valid, in_range, minv in *. rewrite S in *. apply Z.div_pos; nia. }
  split; auto. rewrite (mul_assign_eq c W NR) by auto. fold M. rewrite valid_wrap by auto. reflexivity.
Qed.

Lemma mul_floor x y : is_floor (cf c) (qval (cf c) x * qval (cf c) y) (x * y / M).
Proof using All. apply is_floor_mul; [apply f0|reflexivity]. Qed.

Lemma pow_loop_unit t : ity_ok t = true -> forall (n fuel : nat) r i e a b p q, (n <= fuel)%nat ->
  in_range t e = true -> 0 <= e < 2 ^ Z.of_nat n ->
  valid c r = true -> valid c i = true -> Z.abs r <= M -> Z.abs i <= M ->
  (Qabs a <= 1)%Q -> (Qabs b <= 1)%Q -> (0 <= p)%Q -> (0 <= q)%Q ->
  (Qabs (qval (cf c) r - a) <= p * u)%Q -> (Qabs (qval (cf c) i - b) <= q * u)%Q ->
  exists m, pow_loop fuel c t false r i e = Ok m /\ valid c m = true /\
    (Qabs (qval (cf c) m - a * b ^ e) <= (p + inject_Z e * (q + 1)) * u)%Q.
Proof using All.
  intros K. induction n as [|n IH]; intros fuel r i e a b p q Hf R B Vr Vi Ar Ai Aa Ab Pp Pq Er Ei.
  - change (2 ^ Z.of_nat 0) with 1 in B. assert (e = 0) by lia. subst e. rewrite pow_loop_0 by auto. exists r. repeat split; auto.
    change (b ^ 0)%Q with 1%Q. change (inject_Z 0) with 0%Q.
    setoid_replace (a * 1)%Q with a by ring. setoid_replace ((p + 0 * (q + 1)) * u)%Q with (p * u)%Q by ring. auto.
  - destruct fuel as [|fuel]; [lia|]. destruct (Z.eq_dec e 0) as [->|N].
    { rewrite pow_loop_0 by auto. exists r. repeat split; auto.
      change (b ^ 0)%Q with 1%Q. change (inject_Z 0) with 0%Q.
      setoid_replace (a * 1)%Q with a by ring. setoid_replace ((p + 0 * (q + 1)) * u)%Q with (p * u)%Q by ring. auto. }
    rewrite pow_loop_step by auto.
    assert (HH : Z.quot e 2 = e / 2) by (apply Z.quot_div_nonneg; lia).
    assert (HB : 0 <= Z.quot e 2 < 2 ^ Z.of_nat n).
    { rewrite HH. clear - B. rewrite Nat2Z.inj_succ, Z.pow_succ_r in B by lia. split; [apply Z.div_pos; lia|apply Z.div_lt_upper_bound; lia]. }
    assert (FU : (n <= fuel)%nat) by (clear - Hf; lia). assert (QQ : (0 <= q + q + 1)%Q) by (clear - Pq; lra).
    pose proof (Z.quot_rem e 2 ltac:(discriminate)) as QR.
    pose proof (Z.rem_bound_pos e 2 ltac:(lia) ltac:(lia)) as RB.
    destruct (mul_unit i i Vi Vi Ai Ai) as [E2 V2].
    assert (X2 : (Qabs (qval (cf c) (i * i / M) - b * b) <= (q + q + 1) * u)%Q).
    { apply (floor_mul_err (cf c) i i b b q q u); auto; [apply qabs1; auto|apply mul_floor]. }
    assert (BB : (Qabs (b * b) <= 1)%Q) by (apply Qabs1_mul; auto).
    assert (SQ : ((b * b) ^ Z.quot e 2 == b ^ (2 * Z.quot e 2))%Q).
    { rewrite Qpower_mult. change 2 with (1 + 1). 
      setoid_replace (b ^ (1 + 1))%Q with (b * b)%Q; [reflexivity|]. simpl. reflexivity. }
    set (h := Z.quot e 2) in *.
    destruct (Z.eqb_spec (Z.rem e 2) 0) as [Z0|NZ]; cbn [bind].
    + rewrite E2. cbn [bind].
      destruct (IH fuel r (i * i / M) h a (b * b)%Q p (q + q + 1)%Q) as (m & Hm & Vm & Em); auto.
      * apply ex_half_t; auto.
      * apply floor_unit; auto.
      * exists m. split; [exact Hm|]. split; [exact Vm|]. rewrite SQ in Em.
        assert (E : e = 2 * h) by (clear - QR Z0; lia). rewrite <- E in Em. rewrite E at 2. rewrite inject_Z_mult. change (inject_Z 2) with 2%Q.
        eapply Qle_trans; [exact Em|]. apply Qle_lteq. right. ring.
    + assert (Z1 : Z.rem e 2 = 1) by (clear - RB NZ; lia). destruct (mul_unit r i Vr Vi Ar Ai) as [E1 V1]. rewrite E1. cbn [bind]. rewrite E2. cbn [bind].
      assert (X1 : (Qabs (qval (cf c) (r * i / M) - a * b) <= (p + q + 1) * u)%Q).
      { apply (floor_mul_err (cf c) r i a b p q u); auto; [apply qabs1; auto|apply mul_floor]. }
      assert (AB : (Qabs (a * b) <= 1)%Q) by (apply Qabs1_mul; auto).
      destruct (IH fuel (r * i / M) (i * i / M) h (a * b)%Q (b * b)%Q (p + q + 1)%Q (q + q + 1)%Q) as (m & Hm & Vm & Em);
        auto; [| | |clear - Pp Pq; lra|].
      * apply ex_half_t; auto.
      * apply floor_unit; auto.
      * apply floor_unit; auto.
      * exists m. split; [exact Hm|]. split; [exact Vm|]. rewrite SQ in Em.
        assert (E : e = 2 * h + 1) by (clear - QR Z1; lia).
        assert (PE : (a * b * b ^ (2 * h) == a * b ^ e)%Q).
        { rewrite E. rewrite Qpower_plus'; [|clear - HB; lia]. simpl (b ^ 1)%Q. ring. }
        rewrite PE in Em. eapply Qle_trans; [exact Em|]. rewrite E, inject_Z_plus, inject_Z_mult.
        change (inject_Z 2) with 2%Q. change (inject_Z 1) with 1%Q. apply Qle_lteq. right. ring.
Qed.

Theorem pow_unit_accuracy t b n : ity_ok t = true -> in_range t n = true -> valid c b = true -> 0 <= n ->
  (Qabs (qval (cf c) b) <= 1)%Q ->
  exists m, fx_pow_int c t b n = Ok m /\ valid c m = true /\
    (Qabs (qval (cf c) m - qval (cf c) b ^ n) <= inject_Z n * qval (cf c) 1)%Q.
Proof using All.
  intros K R V E A. pose proof (cf_pos c W) as P. fold M in P.
  assert (O : fx_of_int c 1 = Ok M).
  { rewrite fx_of_int_eq by auto. rewrite Z.mul_1_l. fold M. rewrite valid_wrap; auto. apply one_valid. }
  assert (QM : (qval (cf c) M == 1)%Q).
  { unfold qval, Qeq. simpl. rewrite pow2p_pos by apply f0. fold M. lia. }
  assert (U0 : (0 <= u)%Q) by (unfold u, qval, Qle; simpl; lia).
  assert (NU : (0 <= inject_Z n * u)%Q).
  { apply Qmult_le_0_compat; auto. unfold Qle; simpl; lia. }
  unfold fx_pow_int. rewrite (zero_eq c W). cbn [bind]. rewrite (fx_eq_eq c W) by (auto using v0).
  rewrite ex_eq0, ex_lt0 by auto. replace (n <? 0) with false by lia.
  destruct (Z.eqb_spec b 0) as [->|NZ].
  - assert (Q0 : (qval (cf c) 0 == 0)%Q) by reflexivity.
    destruct (Z.eqb_spec n 0) as [->|N0].
    + exists M. split; [auto|]. split; [apply one_valid|]. change (qval (cf c) 0 ^ 0)%Q with 1%Q. rewrite QM.
      setoid_replace (1 - 1)%Q with 0%Q by ring. exact NU.
    + exists 0. split; [auto|]. split; [apply v0; auto|]. rewrite Q0.
      rewrite Qpower_0 by auto. exact NU.
  - rewrite O. cbn [bind]. pose proof (abs_lt_pow129 c W NR t n K R).
    destruct (pow_loop_unit t K 129 130 M b n 1%Q (qval (cf c) b) 0%Q 0%Q) as (m & Hm & Vm & Em); auto; try lia; try lra.
    + apply one_valid.
    + apply qabs1; auto.
    + vm_compute. congruence.
    + rewrite QM. setoid_replace (1 - 1)%Q with 0%Q by ring. vm_compute. congruence.
    + setoid_replace (qval (cf c) b - qval (cf c) b)%Q with 0%Q by ring. vm_compute; congruence.
    + exists m. split; [exact Hm|]. split; [exact Vm|].
      setoid_replace (1 * qval (cf c) b ^ n)%Q with (qval (cf c) b ^ n)%Q in Em by ring.
      eapply Qle_trans; [exact Em|]. fold u. apply Qle_lteq. right. ring.
Qed.

(** ** bases at least one: the result is never too large and misses at most the first-order term *)
Lemma mul_ge1 x y X Y : valid c x = true -> valid c y = true -> M <= x -> M <= y ->
  (qval (cf c) x <= X)%Q -> (qval (cf c) y <= Y)%Q -> (X * Y <= qval (cf c) (maxv (ct c)))%Q ->
  fx_mul_assign c x y = Ok (x * y / M) /\ valid c (x * y / M) = true /\ M <= x * y / M /\ (qval (cf c) (x * y / M) <= X * Y)%Q.
Proof using All.
  intros Vx Vy A B HX HY HM. pose proof (cf_pos c W) as P. fold M in P.
  assert (G : M <= x * y / M) by (apply Z.div_le_lower_bound; nia).
  assert (L : (qval (cf c) (x * y / M) <= X * Y)%Q).
  { destruct (mul_floor x y) as [L _]. eapply Qle_trans; [exact L|].
    apply Qmult_le_compat_nonneg; split; auto; unfold qval, Qle; simpl; lia. }
  assert (V : valid c (x * y / M) = true).
  { assert (Q1 : (qval (cf c) (x * y / M) <= qval (cf c) (maxv (ct c)))%Q) by (eapply Qle_trans; eauto).
    unfold qval, Qle in Q1. simpl in Q1. assert (x * y / M <= maxv (ct c)) by nia.
    unfold valid, in_range, minv, maxv in *. destruct (sgn (ct c)); lia. }
  repeat split; auto. rewrite (mul_assign_eq c W NR) by auto. fold M. rewrite valid_wrap by auto. reflexivity.
Qed.

(** shortfall of one floored product *)
Lemma short_mul x y X Y p q : M <= x -> M <= y -> (qval (cf c) x <= X)%Q -> (qval (cf c) y <= Y)%Q ->
  (X - qval (cf c) x <= p * u)%Q -> (Y - qval (cf c) y <= q * u)%Q -> (0 <= p)%Q -> (0 <= q)%Q ->
  (X * Y - qval (cf c) (x * y / M) <= (X * q + Y * p + 1) * u)%Q.
Proof using All.
  intros A B HX HY DX DY P Q. destruct (mul_floor x y) as [_ H].
  assert (S : (qval (cf c) (x * y / M + 1) == qval (cf c) (x * y / M) + u)%Q).
  { unfold u, qval, Qeq, Qplus. cbn [Qnum Qden]. rewrite Pos2Z.inj_mul. ring. }
  pose proof (cf_pos c W) as P0. fold M in P0.
  assert (x0 : (0 <= qval (cf c) x)%Q) by (unfold qval, Qle; simpl; lia).
  assert (y0 : (0 <= qval (cf c) y)%Q) by (unfold qval, Qle; simpl; lia).
  set (a := qval (cf c) x) in *. set (b := qval (cf c) y) in *.
  assert (T1 : (X * (Y - b) <= X * (q * u))%Q) by (rewrite (Qmult_comm X), (Qmult_comm X); apply Qmult_le_compat_r; lra).
  assert (T2 : (b * (X - a) <= b * (p * u))%Q) by (rewrite (Qmult_comm b), (Qmult_comm b); apply Qmult_le_compat_r; lra).
  assert (pu : (0 <= p * u)%Q) by (apply Qmult_le_0_compat; auto; unfold u, qval, Qle; simpl; lia).
  assert (T3 : (b * (p * u) <= Y * (p * u))%Q) by (apply Qmult_le_compat_r; auto).
  setoid_replace (X * Y)%Q with (a * b + b * (X - a) + X * (Y - b))%Q by ring.
  setoid_replace ((X * q + Y * p + 1) * u)%Q with (X * (q * u) + Y * (p * u) + u)%Q by ring.
  set (ab := (a * b)%Q) in *. set (z := qval (cf c) (x * y / M)) in *. lra.
Qed.

Lemma pow_loop_ge1 t : ity_ok t = true -> forall (n fuel : nat) r i e X Y p q, (n <= fuel)%nat ->
  in_range t e = true -> 0 < e < 2 ^ Z.of_nat n ->
  valid c r = true -> valid c i = true -> M <= r -> M <= i -> (1 <= X)%Q -> (1 <= Y)%Q -> (0 <= p)%Q -> (0 <= q)%Q ->
  (qval (cf c) r <= X)%Q -> (qval (cf c) i <= Y)%Q ->
  (X - qval (cf c) r <= p * u)%Q -> (Y - qval (cf c) i <= q * u)%Q ->
  (X * Y ^ e <= qval (cf c) (maxv (ct c)))%Q ->
  exists m, pow_loop fuel c t false r i e = Ok m /\ valid c m = true /\ (qval (cf c) m <= X * Y ^ e)%Q /\
    (X * Y ^ e - qval (cf c) m <= (p * Y ^ e + inject_Z e * X * (q + 1) * Y ^ (e - 1)) * u)%Q.
Proof using All.
  intros K. assert (U0 : (0 <= u)%Q) by (unfold u, qval, Qle; simpl; lia).
  induction n as [|n IH]; intros fuel r i e X Y p q Hf R B Vr Vi Ar Ai X1 Y1 Pp Pq Lr Li Er Ei Mx.
  { change (2 ^ Z.of_nat 0) with 1 in B. lia. }
  destruct fuel as [|fuel]; [lia|].
  rewrite pow_loop_step by (auto; lia).
  assert (HH : Z.quot e 2 = e / 2) by (apply Z.quot_div_nonneg; lia).
  assert (HB : 0 <= Z.quot e 2 < 2 ^ Z.of_nat n).
  { rewrite HH. clear - B. rewrite Nat2Z.inj_succ, Z.pow_succ_r in B by lia. split; [apply Z.div_pos; lia|apply Z.div_lt_upper_bound; lia]. }
  assert (FU : (n <= fuel)%nat) by (clear - Hf; lia).
  pose proof (Z.quot_rem e 2 ltac:(discriminate)) as QR.
  pose proof (Z.rem_bound_pos e 2 ltac:(lia) ltac:(lia)) as RB.
  assert (IR : in_range t (Z.quot e 2) = true) by (apply ex_half_t; auto).
  assert (SQ : forall k, ((Y * Y) ^ k == Y ^ (2 * k))%Q).
  { intros k. rewrite Qpower_mult. change 2 with (1 + 1).
    setoid_replace (Y ^ (1 + 1))%Q with (Y * Y)%Q; [reflexivity|]. simpl. reflexivity. }
  set (h := Z.quot e 2) in *.
  assert (YY : (1 <= Y * Y)%Q) by (change 1%Q with (1 * 1)%Q; apply Qmult_le_compat_nonneg; split; auto; lra).
  assert (Yq : (0 <= Y * q)%Q) by (apply Qmult_le_0_compat; lra).
  assert (D1 : (0 <= Y * q + Y * q + 1)%Q) by lra.
  (* the powers of Y that occur *)
  assert (PW : 0 < h -> exists D, (1 <= D)%Q /\ ((Y * Y) ^ (h - 1) == D)%Q /\ (Y ^ (2 * h - 1) == Y * D)%Q /\
     (Y ^ (2 * h) == Y * Y * D)%Q /\ (Y ^ (2 * h + 1) == Y * Y * Y * D)%Q).
  { intros Hh. exists (Y ^ (2 * (h - 1)))%Q. split; [apply Qpow_ge1; auto; lia|]. split; [apply SQ|].
    assert (E1 : (Y ^ (2 * h - 1) == Y * Y ^ (2 * (h - 1)))%Q).
    { replace (2 * h - 1) with (2 * (h - 1) + 1) by lia. rewrite Qpow_S by lia. ring. }
    assert (E2 : (Y ^ (2 * h) == Y * Y * Y ^ (2 * (h - 1)))%Q).
    { replace (2 * h) with (2 * h - 1 + 1) at 1 by lia. rewrite Qpow_S by lia. rewrite E1. ring. }
    split; [exact E1|]. split; [exact E2|]. rewrite Qpow_S by lia. rewrite E2. ring. }
  assert (IQ : (0 <= inject_Z h)%Q) by (unfold Qle; simpl; lia).
  destruct (Z.eqb_spec (Z.rem e 2) 0) as [Z0|NZ]; cbn [bind].
  - assert (E : e = 2 * h) by (clear - QR Z0; lia). assert (Hh : 0 < h) by (clear - E B; lia).
    assert (HB' : 0 < h < 2 ^ Z.of_nat n) by (clear - HB Hh; lia).
    destruct (PW Hh) as (D & D0 & DD & P1 & P2 & _).
    assert (SX : (Y * Y <= X * Y ^ e)%Q).
    { rewrite E, P2. setoid_replace (X * (Y * Y * D))%Q with (X * D * (Y * Y))%Q by ring.
      assert (1 * 1 <= X * D)%Q by (apply Qmult_le_compat_nonneg; split; lra).
      setoid_replace (Y * Y)%Q with (1 * (Y * Y))%Q at 1 by ring. apply Qmult_le_compat_r; lra. }
    destruct (mul_ge1 i i Y Y) as (E2 & V2 & G2 & L2); auto; [eapply Qle_trans; eauto|].
    assert (S2 := short_mul i i Y Y q q Ai Ai Li Li Ei Ei Pq Pq).
    rewrite E2. cbn [bind].
    destruct (IH fuel r (i * i / M) h X (Y * Y)%Q p (Y * q + Y * q + 1)%Q) as (m & Hm & Vm & Lm & Em); auto.
    { rewrite SQ, <- E. exact Mx. }
    exists m. split; [exact Hm|]. split; [exact Vm|]. rewrite SQ, <- E in Lm, Em. split; [exact Lm|].
    eapply Qle_trans; [exact Em|]. apply Qmult_le_compat_r; auto.
    assert (F1 : (inject_Z e == 2 * inject_Z h)%Q) by (rewrite E at 1; rewrite inject_Z_mult; reflexivity).
    assert (F2 : (Y ^ (e - 1) == Y * D)%Q) by (rewrite E at 1; exact P1).
    rewrite DD, F1, F2.
    assert (T : (inject_Z h * X * (Y * q + Y * q + 1 + 1) * D <= 2 * inject_Z h * X * (q + 1) * (Y * D))%Q).
    { setoid_replace (2 * inject_Z h * X * (q + 1) * (Y * D))%Q with (inject_Z h * X * (2 * Y * q + 2 * Y) * D)%Q by ring.
      apply Qmult_le_compat_r; [|lra]. rewrite (Qmult_comm (inject_Z h * X)), (Qmult_comm (inject_Z h * X)).
      apply Qmult_le_compat_r; [lra|]. apply Qmult_le_0_compat; lra. }
    lra.
  - assert (Z1 : Z.rem e 2 = 1) by (clear - RB NZ; lia). assert (E : e = 2 * h + 1) by (clear - QR Z1; lia).
    destruct (Z.eq_dec h 0) as [H0|H0].
    + rewrite H0 in E. change (2 * 0 + 1) with 1 in E.
      assert (PE : (Y ^ e == Y)%Q) by (rewrite E; simpl; reflexivity).
      assert (PE0 : (Y ^ (e - 1) == 1)%Q) by (rewrite E; reflexivity).
      rewrite PE in Mx. destruct (mul_ge1 r i X Y) as (E1 & V1 & G1 & L1); auto.
      rewrite E1. cbn [bind]. rewrite (mul_assign_eq c W NR) by auto. cbn [bind]. rewrite H0, pow_loop_0 by auto.
      exists (r * i / M). split; [reflexivity|]. split; [exact V1|]. rewrite PE, PE0. split; [exact L1|].
      eapply Qle_trans; [apply (short_mul r i X Y p q); auto|]. apply Qmult_le_compat_r; auto.
      rewrite E. change (inject_Z 1) with 1%Q. lra.
    + assert (Hh : 0 < h) by (clear - HB H0; lia). destruct (PW Hh) as (D & D0 & DD & P1 & P2 & P3).
      assert (HB' : 0 < h < 2 ^ Z.of_nat n) by (clear - HB Hh; lia).
      assert (XD : (1 * 1 <= X * D)%Q) by (apply Qmult_le_compat_nonneg; split; lra).
      assert (XYD : (1 * 1 <= Y * (X * D))%Q) by (apply Qmult_le_compat_nonneg; split; lra).
      assert (SX : (Y * Y <= X * Y ^ e)%Q).
      { rewrite E, P3. setoid_replace (X * (Y * Y * Y * D))%Q with (Y * (X * D) * (Y * Y))%Q by ring.
        setoid_replace (Y * Y)%Q with (1 * (Y * Y))%Q at 1 by ring. apply Qmult_le_compat_r; lra. }
      assert (XY : (X * Y <= X * Y ^ e)%Q).
      { rewrite E, P3. setoid_replace (X * (Y * Y * Y * D))%Q with (Y * Y * D * (X * Y))%Q by ring.
        assert (1 * 1 <= Y * Y * D)%Q by (apply Qmult_le_compat_nonneg; split; lra).
        assert (1 * 1 <= X * Y)%Q by (apply Qmult_le_compat_nonneg; split; lra).
        setoid_replace (X * Y)%Q with (1 * (X * Y))%Q at 1 by ring. apply Qmult_le_compat_r; lra. }
      destruct (mul_ge1 i i Y Y) as (E2 & V2 & G2 & L2); auto; [eapply Qle_trans; eauto|].
      assert (S2 := short_mul i i Y Y q q Ai Ai Li Li Ei Ei Pq Pq).
      destruct (mul_ge1 r i X Y) as (E1 & V1 & G1 & L1); auto; [eapply Qle_trans; eauto|].
      assert (S1 := short_mul r i X Y p q Ar Ai Lr Li Er Ei Pp Pq).
      assert (Xq : (0 <= X * q)%Q) by (apply Qmult_le_0_compat; lra).
      assert (Yp : (0 <= Y * p)%Q) by (apply Qmult_le_0_compat; lra).
      assert (XY1 : (1 * 1 <= X * Y)%Q) by (apply Qmult_le_compat_nonneg; split; lra).
      assert (PE : (X * Y * Y ^ (2 * h) == X * Y ^ e)%Q) by (rewrite E, P2, P3; ring).
      rewrite E1. cbn [bind]. rewrite E2. cbn [bind].
      destruct (IH fuel (r * i / M) (i * i / M) h (X * Y)%Q (Y * Y)%Q (X * q + Y * p + 1)%Q (Y * q + Y * q + 1)%Q)
        as (m & Hm & Vm & Lm & Em); auto; try lra.
      { rewrite SQ, PE. exact Mx. }
      exists m. split; [exact Hm|]. split; [exact Vm|]. rewrite SQ, PE in Lm, Em. split; [exact Lm|].
      eapply Qle_trans; [exact Em|]. apply Qmult_le_compat_r; auto.
      assert (F1 : (inject_Z e == 2 * inject_Z h + 1)%Q) by (rewrite E at 1; rewrite inject_Z_plus, inject_Z_mult; reflexivity).
      assert (F2 : (Y ^ (e - 1) == Y * Y * D)%Q) by (rewrite E at 1; replace (2 * h + 1 - 1) with (2 * h) by ring; exact P2).
      assert (F3 : (Y ^ e == Y * Y * Y * D)%Q) by (rewrite E at 1; exact P3).
      rewrite DD, P2, F1, F2, F3.
      set (H := inject_Z h) in *.
      assert (T1 : ((X * q + Y * p + 1) * (Y * Y * D) <= (X * (q + 1) + Y * p) * (Y * Y * D))%Q).
      { apply Qmult_le_compat_r; [lra|]. apply Qmult_le_0_compat; lra. }
      assert (T2 : (H * (X * Y) * (Y * q + Y * q + 1 + 1) * D <= H * (X * Y) * (2 * Y * (q + 1)) * D)%Q).
      { apply Qmult_le_compat_r; [|lra]. rewrite (Qmult_comm (H * (X * Y))), (Qmult_comm (H * (X * Y))).
        apply Qmult_le_compat_r; [lra|]. apply Qmult_le_0_compat; lra. }
      setoid_replace (p * (Y * Y * Y * D) + (2 * H + 1) * X * (q + 1) * (Y * Y * D))%Q with
        ((X * (q + 1) + Y * p) * (Y * Y * D) + H * (X * Y) * (2 * Y * (q + 1)) * D)%Q by ring.
      lra.
Qed.

Theorem pow_ge1_accuracy t b n : ity_ok t = true -> in_range t n = true -> valid c b = true -> 0 < n ->
  (1 <= qval (cf c) b)%Q -> (qval (cf c) b ^ n <= qval (cf c) (maxv (ct c)))%Q ->
  exists m, fx_pow_int c t b n = Ok m /\ valid c m = true /\ (qval (cf c) m <= qval (cf c) b ^ n)%Q /\
    (qval (cf c) b ^ n - qval (cf c) m <= inject_Z n * qval (cf c) b ^ (n - 1) * qval (cf c) 1)%Q.
Proof using All.
  intros K R V E A Mx. pose proof (cf_pos c W) as P. fold M in P.
  assert (O : fx_of_int c 1 = Ok M).
  { rewrite fx_of_int_eq by auto. rewrite Z.mul_1_l. fold M. rewrite valid_wrap; auto. apply one_valid. }
  assert (QM : (qval (cf c) M == 1)%Q).
  { unfold qval, Qeq. simpl. rewrite pow2p_pos by apply f0. fold M. lia. }
  assert (BM : M <= b).
  { unfold qval, Qle in A. simpl in A. rewrite pow2p_pos in A by apply f0. fold M in A. lia. }
  unfold fx_pow_int. rewrite (zero_eq c W). cbn [bind]. rewrite (fx_eq_eq c W) by (auto using v0).
  rewrite ex_eq0, ex_lt0 by auto. replace (n <? 0) with false by (clear - E; lia).
  replace (b =? 0) with false by (clear - BM P; lia).
  rewrite O. cbn [bind]. pose proof (abs_lt_pow129 c W NR t n K R).
  assert (U0 : (0 <= u)%Q) by (unfold u, qval, Qle; simpl; lia).
  assert (X0 : (1 * qval (cf c) b ^ n == qval (cf c) b ^ n)%Q) by ring.
  destruct (pow_loop_ge1 t K 129 130 M b n 1%Q (qval (cf c) b) 0%Q 0%Q) as (m & Hm & Vm & Lm & Em); auto.
  all: try (clear; lia). all: try (clear - H E; lia). all: try (clear; lra). all: try apply one_valid. all: try apply Qle_refl.
  all: try (rewrite QM; clear; lra). all: try (rewrite X0; exact Mx). all: try (clear - U0; lra).
  rewrite X0 in Lm, Em. exists m. split; [exact Hm|]. split; [exact Vm|]. split; [exact Lm|].
  eapply Qle_trans; [exact Em|]. fold u. apply Qle_lteq. right. ring.
Qed.
End POW.
