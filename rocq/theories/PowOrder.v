(** Integer powers keep the order of bases and of exponents. *)
From Coq Require Import ZArith QArith Qabs Qpower Lia Lqa Bool.
From Verif Require Import Base Fixed Math Spec BaseLemmas SpecLemmas FixedLemmas CLemmas MathProofs PowProofs PowAcc.
Open Scope Z_scope.

(** the loop over unbounded integers, every product floored *)
Fixpoint pw (M : Z) (n : nat) (r i e : Z) : Z :=
  match n with
  | O => r
  | S k => if e =? 0 then r else pw M k (if Z.rem e 2 =? 0 then r else r * i / M) (i * i / M) (Z.quot e 2)
  end.

Lemma fm_mono M x y x' y' : 0 < M -> 0 <= x <= x' -> 0 <= y <= y' -> x * y / M <= x' * y' / M.
Proof. intros. apply Z.div_le_mono; nia. Qed.
Lemma fm_pos M x y : 0 < M -> 0 <= x -> 0 <= y -> 0 <= x * y / M.
Proof. intros. apply Z.div_pos; nia. Qed.

Lemma pw_mono M n : 0 < M -> forall r i e r' i', 0 <= r <= r' -> 0 <= i <= i' -> pw M n r i e <= pw M n r' i' e.
Proof.
  intros P. induction n as [|n IH]; intros r i e r' i' R I; cbn [pw]; [lia|].
  destruct (e =? 0); [lia|]. pose proof (fm_pos M i i P ltac:(lia) ltac:(lia)). pose proof (fm_mono M i i i' i' P I I).
  pose proof (fm_pos M r i P ltac:(lia) ltac:(lia)). pose proof (fm_mono M r i r' i' P R I).
  apply IH; [|lia]. destruct (Z.rem e 2 =? 0); lia.
Qed.

Lemma quot_even h : 0 <= h -> Z.quot (2 * h) 2 = h /\ Z.rem (2 * h) 2 = 0.
Proof.
  intros. rewrite Z.quot_div_nonneg, Z.rem_mod_nonneg by lia. split.
  - rewrite Z.mul_comm. apply Z.div_mul. lia.
  - rewrite Z.mul_comm. apply Z.mod_mul. lia.
Qed.
Lemma quot_odd h : 0 <= h -> Z.quot (2 * h + 1) 2 = h /\ Z.rem (2 * h + 1) 2 = 1.
Proof.
  intros. rewrite Z.quot_div_nonneg, Z.rem_mod_nonneg by lia. split.
  - symmetry. apply (Z.div_unique _ 2 h 1); lia.
  - symmetry. apply (Z.mod_unique _ 2 h 1); lia.
Qed.
Lemma parity e : 0 <= e -> exists h, 0 <= h /\ (e = 2 * h \/ e = 2 * h + 1).
Proof.
  intros H. exists (e / 2). pose proof (Z.div_mod e 2 ltac:(lia)). pose proof (Z.mod_pos_bound e 2 ltac:(lia)).
  split; [apply Z.div_pos; lia|lia].
Qed.

Lemma pw_even M n r i h : 0 < h -> pw M (S n) r i (2 * h) = pw M n r (i * i / M) h.
Proof.
  intros. cbn [pw]. replace (2 * h =? 0) with false by lia. destruct (quot_even h ltac:(lia)) as [-> ->]. reflexivity.
Qed.
Lemma pw_odd M n r i h : 0 <= h -> pw M (S n) r i (2 * h + 1) = pw M n (r * i / M) (i * i / M) h.
Proof.
  intros. cbn [pw]. replace (2 * h + 1 =? 0) with false by lia. destruct (quot_odd h ltac:(lia)) as [-> ->]. reflexivity.
Qed.
Lemma pw_zero M n r i : pw M n r i 0 = r.
Proof. destruct n; reflexivity. Qed.

(** one more factor: what the low run of one bits contributes is at most the next square (at least, below one) *)
Lemma pw_up M n : 0 < M -> forall s i e, 0 <= s <= i -> 0 <= e < 2 ^ Z.of_nat n - 1 -> pw M n s i e <= pw M n M i (e + 1).
Proof.
  intros P. induction n as [|n IH]; intros s i e S E; [change (2 ^ Z.of_nat 0) with 1 in E; lia|].
  rewrite Nat2Z.inj_succ, Z.pow_succ_r in E by lia.
  assert (MI : M * i / M = i) by (rewrite Z.mul_comm; apply Z.div_mul; lia).
  destruct (parity e ltac:(lia)) as (h & Hh & [-> | ->]).
  - rewrite pw_odd by lia. rewrite MI. destruct (Z.eq_dec h 0) as [-> |N].
    + change (2 * 0) with 0. rewrite !pw_zero. lia.
    + rewrite pw_even by lia. apply pw_mono; auto. split; [apply fm_pos; lia|lia].
  - replace (2 * h + 1 + 1) with (2 * (h + 1)) by ring. rewrite pw_even by lia. rewrite pw_odd by lia.
    apply IH; [|lia]. split; [apply fm_pos; lia|apply fm_mono; lia].
Qed.
Lemma pw_down M n : 0 < M -> forall s i e, 0 <= i <= s -> 0 <= e < 2 ^ Z.of_nat n - 1 -> pw M n M i (e + 1) <= pw M n s i e.
Proof.
  intros P. induction n as [|n IH]; intros s i e S E; [change (2 ^ Z.of_nat 0) with 1 in E; lia|].
  rewrite Nat2Z.inj_succ, Z.pow_succ_r in E by lia.
  assert (MI : M * i / M = i) by (rewrite Z.mul_comm; apply Z.div_mul; lia).
  destruct (parity e ltac:(lia)) as (h & Hh & [-> | ->]).
  - rewrite pw_odd by lia. rewrite MI. destruct (Z.eq_dec h 0) as [-> |N].
    + change (2 * 0) with 0. rewrite !pw_zero. lia.
    + rewrite pw_even by lia. apply pw_mono; auto. split; [apply fm_pos; lia|lia].
  - replace (2 * h + 1 + 1) with (2 * (h + 1)) by ring. rewrite pw_even by lia. rewrite pw_odd by lia.
    apply IH; [|lia]. split; [apply fm_pos; lia|apply fm_mono; lia].
Qed.
Lemma pw_up_le M n b e k : 0 < M -> M <= b -> 0 <= e <= k -> k < 2 ^ Z.of_nat n -> pw M n M b e <= pw M n M b k.
Proof.
  intros P B E K. assert (G : forall d, 0 <= d -> e + d < 2 ^ Z.of_nat n -> pw M n M b e <= pw M n M b (e + d)).
  { intros d D. pattern d. apply natlike_ind; auto.
    - rewrite Z.add_0_r. lia.
    - intros x Hx IH L. eapply Z.le_trans; [apply IH; lia|]. rewrite Z.add_succ_r, <- Z.add_1_r. apply pw_up; lia. }
  specialize (G (k - e)). replace (e + (k - e)) with k in G by ring. apply G; lia.
Qed.
Lemma pw_down_le M n b e k : 0 < M -> 0 <= b <= M -> 0 <= e <= k -> k < 2 ^ Z.of_nat n -> pw M n M b k <= pw M n M b e.
Proof.
  intros P B E K. assert (G : forall d, 0 <= d -> e + d < 2 ^ Z.of_nat n -> pw M n M b (e + d) <= pw M n M b e).
  { intros d D. pattern d. apply natlike_ind; auto.
    - rewrite Z.add_0_r. lia.
    - intros x Hx IH L. eapply Z.le_trans; [|apply IH; lia]. rewrite Z.add_succ_r, <- Z.add_1_r. apply pw_down; lia. }
  specialize (G (k - e)). replace (e + (k - e)) with k in G by ring. apply G; lia.
Qed.

Lemma sq_pow Y k : ((Y * Y) ^ k == Y ^ (2 * k))%Q.
Proof.
  rewrite Qpower_mult. change 2 with (1 + 1). setoid_replace (Y ^ (1 + 1))%Q with (Y * Y)%Q; [reflexivity|]. simpl. reflexivity.
Qed.
Lemma pow_step Y h : 0 < h -> (1 <= Y)%Q -> (Y * Y <= Y ^ (2 * h))%Q.
Proof.
  intros H Y1. replace (2 * h) with (2 * (h - 1) + 1 + 1) by ring. rewrite !Qpow_S by lia.
  pose proof (Qpow_ge1 Y (2 * (h - 1)) Y1 ltac:(lia)) as D. set (d := (Y ^ (2 * (h - 1)))%Q) in *.
  setoid_replace (d * Y * Y)%Q with (d * (Y * Y))%Q by ring.
  setoid_replace (Y * Y)%Q with (1 * (Y * Y))%Q at 1 by ring. apply Qmult_le_compat_r; auto.
  apply Qmult_le_0_compat; lra.
Qed.
Lemma Qle_mul1 a b : (1 <= a)%Q -> (0 <= b)%Q -> (b <= a * b)%Q.
Proof. intros. setoid_replace b with (1 * b)%Q at 1 by ring. apply Qmult_le_compat_r; auto. Qed.

Section ORD.
Variable c : cfg.
Hypotheses (W : wf c = true) (NR : cr c = false) (SG : sgn (ct c) = true -> cf c <= bits (ct c) - 2).
Let M := 2 ^ cf c.
Notation qv := (qval (cf c)).
Notation qmax := (qval (cf c) (maxv (ct c))).

Lemma M_pos : 0 < M. Proof using W. apply (cf_pos c W). Qed.
Lemma qv_M : (qv M == 1)%Q.
Proof using All. unfold qval, Qeq. simpl. rewrite pow2p_pos by (apply (f0 c); auto). fold M. lia. Qed.

Lemma mul_bnd x y X Y : valid c x = true -> valid c y = true -> 0 <= x -> 0 <= y ->
  (qv x <= X)%Q -> (qv y <= Y)%Q -> (X * Y <= qmax)%Q ->
  fx_mul_assign c x y = Ok (x * y / M) /\ valid c (x * y / M) = true /\ 0 <= x * y / M /\ (qv (x * y / M) <= X * Y)%Q.
Proof using All.
  intros Vx Vy A B HX HY HM. pose proof M_pos as P.
  assert (G : 0 <= x * y / M) by (apply fm_pos; auto).
  assert (L : (qv (x * y / M) <= X * Y)%Q).
  { destruct (mul_floor c W NR SG x y) as [L _]. eapply Qle_trans; [exact L|].
    apply Qmult_le_compat_nonneg; split; auto; unfold qval, Qle; simpl; lia. }
  assert (V : valid c (x * y / M) = true).
  { assert (Q1 : (qv (x * y / M) <= qmax)%Q) by (eapply Qle_trans; eauto).
    unfold qval, Qle in Q1. simpl in Q1. assert (x * y / M <= maxv (ct c)) by nia.
    unfold valid, in_range, minv, maxv in *. destruct (sgn (ct c)); lia. }
  repeat split; auto. rewrite (mul_assign_eq c W NR) by auto. fold M. rewrite valid_wrap by auto. reflexivity.
Qed.

Lemma pow_loop_pw t : ity_ok t = true -> forall (n fuel : nat) r i e X Y, (n <= fuel)%nat ->
  in_range t e = true -> 0 <= e < 2 ^ Z.of_nat n ->
  valid c r = true -> valid c i = true -> 0 <= r -> 0 <= i -> (1 <= X)%Q -> (1 <= Y)%Q ->
  (qv r <= X)%Q -> (qv i <= Y)%Q -> (X * Y ^ e <= qmax)%Q ->
  pow_loop fuel c t false r i e = Ok (pw M n r i e) /\ valid c (pw M n r i e) = true.
Proof using All.
  intros K. induction n as [|n IH]; intros fuel r i e X Y Hf R B Vr Vi Ar Ai X1 Y1 Lr Li Mx.
  { change (2 ^ Z.of_nat 0) with 1 in B. assert (e = 0) by lia. subst e. rewrite pow_loop_0 by auto. split; [reflexivity|exact Vr]. }
  destruct fuel as [|fuel]; [lia|].
  destruct (Z.eq_dec e 0) as [-> |N]. { rewrite pow_loop_0, pw_zero by auto. auto. }
  rewrite pow_loop_step by auto.
  assert (IR : in_range t (Z.quot e 2) = true) by (apply ex_half_t; auto).
  assert (FU : (n <= fuel)%nat) by (clear - Hf; lia).
  assert (Y2 : (0 <= Y)%Q) by lra. assert (YY0 : (1 <= Y * Y)%Q).
  { eapply Qle_trans; [exact Y1|]. apply Qle_mul1; auto. }
  rewrite Nat2Z.inj_succ, Z.pow_succ_r in B by lia.
  destruct (parity e ltac:(lia)) as (h & Hh & [E | E]).
  - assert (H0 : 0 < h) by lia. rewrite E in *. clear E. destruct (quot_even h Hh) as [-> ->] in *. destruct (quot_even h Hh) as [Q1 _].
    rewrite Q1 in IR. rewrite pw_even by auto. cbn [bind]. change (0 =? 0) with true. cbn [bind].
    assert (PY : (1 <= Y ^ (2 * h))%Q) by (apply Qpow_ge1; auto; lia).
    assert (S : (Y * Y <= qmax)%Q).
    { eapply Qle_trans; [apply (pow_step Y h); auto|]. eapply Qle_trans; [|exact Mx]. apply Qle_mul1; lra. }
    destruct (mul_bnd i i Y Y) as (E2 & V2 & G2 & L2); auto. rewrite E2. cbn [bind].
    apply (IH fuel r (i * i / M) h X (Y * Y)%Q); auto; [clear - Hh B; lia|]. rewrite sq_pow. exact Mx.
  - rewrite E in *. clear E. destruct (quot_odd h Hh) as [Q1 Q2]. rewrite Q1 in *. rewrite Q2. rewrite pw_odd by auto.
    change (1 =? 0) with false. cbv iota. cbn [bind].
    assert (PE : (X * Y ^ (2 * h + 1) == X * Y * Y ^ (2 * h))%Q) by (rewrite Qpow_S by lia; ring).
    rewrite PE in Mx. assert (PY : (1 <= Y ^ (2 * h))%Q) by (apply Qpow_ge1; auto; lia).
    assert (XY0 : (1 <= X * Y)%Q) by (eapply Qle_trans; [exact Y1|]; apply Qle_mul1; auto).
    assert (XY : (X * Y <= qmax)%Q).
    { eapply Qle_trans; [|exact Mx]. rewrite (Qmult_comm (X * Y)). apply Qle_mul1; auto. lra. }
    destruct (mul_bnd r i X Y) as (E1 & V1 & G1 & L1); auto. rewrite E1. cbn [bind].
    destruct (Z.eq_dec h 0) as [-> |H0].
    + rewrite (mul_assign_eq c W NR) by auto. cbn [bind]. rewrite pow_loop_0, pw_zero by auto. auto.
    + assert (S : (Y * Y <= qmax)%Q).
      { eapply Qle_trans; [apply (pow_step Y h); auto; clear - Hh H0; lia|]. eapply Qle_trans; [|exact Mx]. apply Qle_mul1; lra. }
      destruct (mul_bnd i i Y Y) as (E2 & V2 & G2 & L2); auto. rewrite E2. cbn [bind].
      apply (IH fuel (r * i / M) (i * i / M) h (X * Y)%Q (Y * Y)%Q); auto; [clear - Hh B; lia|]. rewrite sq_pow. exact Mx.
Qed.

Lemma pow_int_pw t b n Y : ity_ok t = true -> in_range t n = true -> valid c b = true -> 0 <= n -> 0 <= b ->
  (1 <= Y)%Q -> (qv b <= Y)%Q -> (Y ^ n <= qmax)%Q ->
  fx_pow_int c t b n = Ok (pw M 129 M b n) /\ valid c (pw M 129 M b n) = true.
Proof using All.
  intros K R V N B Y1 L Mx. pose proof M_pos as P. pose proof (abs_lt_pow129 c W NR t n K R) as L129.
  assert (O : fx_of_int c 1 = Ok M).
  { rewrite fx_of_int_eq by auto. rewrite Z.mul_1_l. fold M. rewrite valid_wrap; auto. apply (one_valid c); auto. }
  destruct (pow_loop_pw t K 129 130 M b n 1%Q Y) as [E VE]; auto.
  - split; [exact N|]. revert L129. generalize (2 ^ Z.of_nat 129). clear. lia.
  - apply (one_valid c); auto.
  - clear - P; lia.
  - clear; lra.
  - rewrite qv_M. clear; lra.
  - rewrite Qmult_1_l. exact Mx.
  - split; [|exact VE]. unfold fx_pow_int. rewrite (zero_eq c W). cbn [bind]. rewrite (fx_eq_eq c W) by (auto using v0).
    rewrite ex_eq0, ex_lt0 by auto. replace (n <? 0) with false by (clear - N; lia).
    rewrite O. cbn [bind]. destruct (Z.eqb_spec b 0) as [-> |B0]; [|exact E].
    destruct (Z.eqb_spec n 0) as [-> |N0]; [reflexivity|].
    assert (K129 : n < 2 ^ Z.of_nat 129) by (revert L129; generalize (2 ^ Z.of_nat 129); clear; lia).
    assert (P0 : 0 <= 0 <= M) by (clear - P; lia). assert (N1 : 0 <= 1 <= n) by (clear - N N0; lia).
    assert (U : pw M 129 M 0 n <= pw M 129 M 0 1) by (apply (pw_down_le M 129 0 1 n P P0 N1 K129)).
    assert (Z1 : pw M 129 M 0 1 = 0).
    { change 129%nat with (S 128). change 1 with (2 * 0 + 1). rewrite pw_odd, pw_zero, Z.mul_0_r by lia. reflexivity. }
    assert (U0 : 0 <= pw M 129 M 0 n).
    { assert (G : forall k r i e, 0 <= r -> 0 <= i -> 0 <= pw M k r i e); [|apply G; clear - P; lia].
      clear - P. induction k as [|k IH]; intros; cbn [pw]; [lia|]. destruct (e =? 0); [lia|].
      apply IH; [destruct (Z.rem e 2 =? 0); auto|]; apply fm_pos; auto. }
    f_equal. clear - U Z1 U0. lia.
Qed.

Lemma top_of b n : (qv b ^ n <= qmax)%Q -> 0 <= b -> 0 <= n ->
  exists Y, (1 <= Y)%Q /\ (qv b <= Y)%Q /\ (Y ^ n <= qmax)%Q.
Proof using All.
  intros Mx B N. destruct (Qlt_le_dec (qv b) 1) as [L|G].
  - exists 1%Q. split; [lra|]. split; [lra|]. rewrite Qpower_1. rewrite <- qv_M.
    pose proof (one_valid c W NR SG) as O. unfold valid, in_range in O. fold M in O. unfold qval, Qle. simpl. nia.
  - exists (qv b). repeat split; auto. lra.
Qed.
Lemma qv_le x y : (qv x <= qv y)%Q <-> x <= y.
Proof using All. unfold qval, Qle. cbn [Qnum Qden]. split; nia. Qed.
Lemma qv_nonneg x : (0 <= qv x)%Q <-> 0 <= x.
Proof using All. unfold qval, Qle. simpl. rewrite Z.mul_1_r. reflexivity. Qed.

Theorem pow_base_order t a b n : ity_ok t = true -> in_range t n = true -> valid c a = true -> valid c b = true -> 0 <= n ->
  (0 <= qv a)%Q -> (qv a <= qv b)%Q -> (qv b ^ n <= qmax)%Q ->
  exists p q, fx_pow_int c t a n = Ok p /\ fx_pow_int c t b n = Ok q /\ valid c p = true /\ valid c q = true /\ (qv p <= qv q)%Q.
Proof using All.
  intros K R Va Vb N A AB Mx. rewrite qv_nonneg in A. rewrite qv_le in AB. pose proof M_pos as P.
  assert (B0 : 0 <= b) by (clear - A AB; lia).
  destruct (top_of b n Mx B0 N) as (Y & Y1 & YB & YM).
  destruct (pow_int_pw t a n Y) as [Ea Wa]; auto. { eapply Qle_trans; [rewrite qv_le; exact AB|exact YB]. }
  destruct (pow_int_pw t b n Y) as [Eb Wb]; auto.
  exists (pw M 129 M a n), (pw M 129 M b n). repeat split; auto. rewrite qv_le.
  apply (pw_mono M 129 P); [clear - P; lia|exact (conj A AB)].
Qed.

Theorem pow_exp_order t b n k : ity_ok t = true -> in_range t k = true -> valid c b = true -> 0 <= n <= k ->
  (0 <= qv b)%Q -> (qv b ^ k <= qmax)%Q ->
  exists p q, fx_pow_int c t b n = Ok p /\ fx_pow_int c t b k = Ok q /\ valid c p = true /\ valid c q = true /\
    ((1 <= qv b)%Q -> (qv p <= qv q)%Q) /\ ((qv b <= 1)%Q -> (qv q <= qv p)%Q).
Proof using All.
  intros K R V N B Mx. rewrite qv_nonneg in B. pose proof M_pos as P.
  assert (Rn : in_range t n = true).
  { unfold in_range, minv, maxv in *. destruct (sgn t); [|lia].
    destruct (Z.leb_spec (bits t) 0) as [L|L].
    - exfalso. revert K. unfold ity_ok. clear - L. repeat rewrite ?Bool.andb_true_iff, ?Bool.orb_true_iff. lia.
    - pose proof (Z.pow_pos_nonneg 2 (bits t - 1) ltac:(lia) ltac:(lia)). lia. }
  destruct (top_of b k Mx B ltac:(lia)) as (Y & Y1 & YB & YM).
  assert (YN : (Y ^ n <= qmax)%Q).
  { eapply Qle_trans; [|exact YM]. destruct (Z.eq_dec k 0) as [K0|K0].
    { replace n with k by (clear - N K0; lia). apply Qle_refl. }
    assert (PE : (Y ^ k == Y ^ n * Y ^ (k - n))%Q).
    { rewrite <- Qpower_plus' by (clear - K0; lia). replace (n + (k - n)) with k by ring. reflexivity. }
    rewrite PE. pose proof (Qpow_ge1 Y n Y1 ltac:(lia)). pose proof (Qpow_ge1 Y (k - n) Y1 ltac:(lia)).
    rewrite (Qmult_comm (Y ^ n)). apply Qle_mul1; lra. }
  assert (K129 : k < 2 ^ Z.of_nat 129).
  { pose proof (abs_lt_pow129 c W NR t k K R) as L129. revert L129. generalize (2 ^ Z.of_nat 129). clear. lia. }
  assert (n0 : 0 <= n) by (clear - N; lia). assert (k0 : 0 <= k) by (clear - N; lia).
  destruct (pow_int_pw t b n Y) as [Ea Wa]; auto.
  destruct (pow_int_pw t b k Y) as [Eb Wb]; auto.
  exists (pw M 129 M b n), (pw M 129 M b k). repeat split; auto; intros Hb; rewrite qv_le.
  - assert (MB : M <= b) by (rewrite <- qv_le; rewrite qv_M; exact Hb). apply (pw_up_le M 129 b n k P MB N K129).
  - assert (MB : b <= M) by (rewrite <- qv_le; rewrite qv_M; exact Hb). apply (pw_down_le M 129 b n k P (conj B MB) N K129).
Qed.
End ORD.
