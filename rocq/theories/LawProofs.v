(** Order and cancellation laws of the operators. *)
From Coq Require Import ZArith QArith Qabs Lia Lqa Bool.
From Verif Require Import Base Fixed Spec SpecClient BaseLemmas SpecLemmas FixedLemmas ArithProofs ArithProofs2 PowAcc ClientProofs.
Open Scope Z_scope.

Lemma qval_lt f x y : (qval f x < qval f y)%Q <-> x < y.
Proof. unfold qval, Qlt. cbn [Qnum Qden]. split; nia. Qed.
Lemma qval_0 f : (qval f 0 == 0)%Q.
Proof. reflexivity. Qed.
Lemma lo_le0 w s : 1 <= w -> lo w s <= 0 <= hi w s.
Proof.
  intros. unfold lo, hi. destruct s.
  - pose proof (Z.pow_pos_nonneg 2 (w - 1) ltac:(lia) ltac:(lia)). lia.
  - pose proof (Z.pow_pos_nonneg 2 w ltac:(lia) ltac:(lia)). lia.
Qed.

Lemma floor_mono f a b p q : is_floor f a p -> is_floor f b q -> (a <= b)%Q -> p <= q.
Proof. intros [A1 A2] [B1 B2] L. cut (p < q + 1); [lia|]. apply (qval_lt f). lra. Qed.
Lemma trunc_mono f a b p q : is_trunc f a p -> is_trunc f b q -> (a <= b)%Q -> p <= q.
Proof.
  intros [Af Ac] [Bf Bc] L. pose proof (qval_0 f) as Z0.
  destruct (Qlt_le_dec 0 a) as [P|N].
  - apply (floor_mono f a b); [apply Af|apply Bf|]; lra.
  - destruct (Qlt_le_dec 0 b) as [Pb|Nb].
    + destruct (Ac N) as [A1 A2]. destruct (Bf ltac:(lra)) as [B1 B2].
      assert (p - 1 < 0) by (apply (qval_lt f); lra). assert (0 < q + 1) by (apply (qval_lt f); lra). lia.
    + destruct (Ac N) as [A1 A2]. destruct (Bc Nb) as [B1 B2]. cut (p - 1 < q); [lia|]. apply (qval_lt f). lra.
Qed.
Lemma floor_span w s f q m : 1 <= w -> in_span w s f q -> is_floor f q m -> fits w s m.
Proof.
  intros W [S1 S2] [A B]. split.
  - cut (lo w s < m + 1); [lia|]. apply (qval_lt f). lra.
  - cut (m < hi w s + 1); [lia|]. apply (qval_lt f). lra.
Qed.
Lemma trunc_span w s f q m : 1 <= w -> in_span w s f q -> is_trunc f q m -> fits w s m.
Proof.
  intros W [S1 S2] [Fl Ce]. pose proof (lo_le0 w s W) as L. pose proof (qval_0 f) as Z0.
  destruct (Qlt_le_dec 0 q) as [P|N].
  - destruct (Fl ltac:(lra)) as [A B]. split.
    + assert (0 < m + 1) by (apply (qval_lt f); lra). lia.
    + cut (m < hi w s + 1); [lia|]. apply (qval_lt f). lra.
  - destruct (Ce N) as [A B]. split.
    + apply (qval_le f). lra.
    + assert (m - 1 < 0) by (apply (qval_lt f); lra). lia.
Qed.

Section LAW.
Variable c : cfg.
Hypotheses (W : wf c = true) (NR : cr c = false).
Notation qv := (qval (cf c)).
Notation spanc := (in_span (bits (ct c)) (sgn (ct c)) (cf c)).
Lemma law_f : 0 <= cf c. Proof using All. destruct (wf_bnd c W) as (_ & _ & _ & _ & _ & F). clear - F. lia. Qed.
Lemma law_w : 1 <= bits (ct c). Proof using All. destruct (wf_bnd c W) as (? & _). lia. Qed.
Lemma mul_span x y : valid c x = true -> valid c y = true -> spanc (qv x * qv y) ->
  exists p, fx_mul c x y = Ok p /\ valid c p = true /\ is_floor (cf c) (qv x * qv y) p.
Proof using All.
  intros X Y S. assert (I : is_floor (cf c) (qv x * qv y) (x * y / 2 ^ cf c)) by (apply is_floor_mul; auto using law_f).
  assert (V : valid c (x * y / 2 ^ cf c) = true) by (apply fits_valid; auto; eapply floor_span; eauto using law_w).
  exists (x * y / 2 ^ cf c). rewrite fx_mul_eq, valid_wrap by auto. auto.
Qed.
Lemma div_span x y : valid c x = true -> valid c y = true -> y <> 0 -> spanc (qv x / qv y) ->
  exists p, fx_div c x y = Ok p /\ valid c p = true /\ is_trunc (cf c) (qv x / qv y) p.
Proof using All.
  intros X Y N S. assert (I : is_trunc (cf c) (qv x / qv y) (Z.quot (x * 2 ^ cf c) y)) by (apply is_trunc_div; auto using law_f).
  assert (V : valid c (Z.quot (x * 2 ^ cf c) y) = true) by (apply fits_valid; auto; eapply trunc_span; eauto using law_w).
  exists (Z.quot (x * 2 ^ cf c) y). rewrite fx_div_eq, valid_wrap by auto. auto.
Qed.

Theorem mul_mono x y z : valid c x = true -> valid c y = true -> valid c z = true -> (qv x <= qv y)%Q ->
  spanc (qv x * qv z) -> spanc (qv y * qv z) ->
  exists p q, fx_mul c x z = Ok p /\ fx_mul c y z = Ok q /\ valid c p = true /\ valid c q = true /\
  ((0 <= qv z)%Q -> (qv p <= qv q)%Q) /\ ((qv z <= 0)%Q -> (qv q <= qv p)%Q).
Proof using All.
  intros X Y Z L S T. destruct (mul_span x z X Z S) as (p & E1 & V1 & F1). destruct (mul_span y z Y Z T) as (q & E2 & V2 & F2).
  exists p, q. repeat split; auto; intros H; apply qval_le.
  - apply (floor_mono _ _ _ _ _ F1 F2). apply Qmult_le_compat_r; auto.
  - apply (floor_mono _ _ _ _ _ F2 F1). setoid_replace (qv y * qv z)%Q with (- (qv y * - qv z))%Q by ring.
    setoid_replace (qv x * qv z)%Q with (- (qv x * - qv z))%Q by ring. apply Qopp_le_compat. apply Qmult_le_compat_r; auto. lra.
Qed.

Lemma div_le_pos a b d : (0 < d)%Q -> (a <= b)%Q -> (a / d <= b / d)%Q.
Proof using All. intros D L. unfold Qdiv. apply Qmult_le_compat_r; auto. apply Qlt_le_weak, Qinv_lt_0_compat; auto. Qed.
Lemma nz y : (~ qv y == 0)%Q -> y <> 0.
Proof using All. intros H E. apply H. subst. reflexivity. Qed.
Theorem div_mono x y z : valid c x = true -> valid c y = true -> valid c z = true -> (qv x <= qv y)%Q -> (~ qv z == 0)%Q ->
  spanc (qv x / qv z) -> spanc (qv y / qv z) ->
  exists p q, fx_div c x z = Ok p /\ fx_div c y z = Ok q /\ valid c p = true /\ valid c q = true /\
  ((0 < qv z)%Q -> (qv p <= qv q)%Q) /\ ((qv z < 0)%Q -> (qv q <= qv p)%Q).
Proof using All.
  intros X Y Z L N S T. pose proof (nz z N) as Nz.
  destruct (div_span x z X Z Nz S) as (p & E1 & V1 & F1). destruct (div_span y z Y Z Nz T) as (q & E2 & V2 & F2).
  exists p, q. repeat split; auto; intros H; apply qval_le.
  - apply (trunc_mono _ _ _ _ _ F1 F2). apply div_le_pos; auto.
  - apply (trunc_mono _ _ _ _ _ F2 F1). setoid_replace (qv y / qv z)%Q with (- qv y / - qv z)%Q by (field; auto).
    setoid_replace (qv x / qv z)%Q with (- qv x / - qv z)%Q by (field; auto). apply div_le_pos; lra.
Qed.
Theorem div_anti x y z : valid c x = true -> valid c y = true -> valid c z = true -> (0 <= qv x)%Q -> (0 < qv y)%Q -> (qv y <= qv z)%Q ->
  spanc (qv x / qv y) ->
  exists p q, fx_div c x y = Ok p /\ fx_div c x z = Ok q /\ valid c p = true /\ valid c q = true /\ (0 <= qv q)%Q /\ (qv q <= qv p)%Q.
Proof using All.
  intros X Y Z X0 Y0 L S. pose proof (nz y ltac:(lra)) as Ny. pose proof (nz z ltac:(lra)) as Nz.
  assert (I : (qv x / qv z <= qv x / qv y)%Q).
  { unfold Qdiv. setoid_rewrite (Qmult_comm (qv x)). apply Qmult_le_compat_r; auto.
    apply Qle_shift_inv_l; [auto|]. setoid_replace (/ qv z * qv y)%Q with (qv y / qv z)%Q by (field; lra).
    apply Qle_shift_div_r; lra. }
  assert (P : (0 <= qv x / qv z)%Q) by (apply Qle_shift_div_l; lra).
  assert (T : spanc (qv x / qv z)).
  { destruct S as [S1 S2]. split; [|lra]. apply Qle_trans with 0%Q; auto. rewrite <- (qval_0 (cf c)). apply qval_le.
    apply (lo_le0 _ _ law_w). }
  destruct (div_span x y X Y Ny S) as (p & E1 & V1 & F1). destruct (div_span x z X Z Nz T) as (q & E2 & V2 & F2).
  exists p, q. repeat split; auto.
  - rewrite <- (qval_0 (cf c)). apply qval_le. destruct F2 as [F2 _]. destruct (F2 P) as [A B].
    cut (0 < q + 1); [lia|]. apply (qval_lt (cf c)). rewrite qval_0. lra.
  - apply qval_le. apply (trunc_mono _ _ _ _ _ F2 F1 I).
Qed.

(** cancellation *)
Lemma floor_abs q m : is_floor (cf c) q m -> (Qabs (qv m - q) <= qv 1)%Q.
Proof using All. intros [A B]. rewrite qval_add in B. apply Qabs_case; lra. Qed.
Lemma trunc_abs q m : is_trunc (cf c) q m -> (Qabs (qv m - q) <= qv 1)%Q.
Proof using All.
  intros [F C]. destruct (Qlt_le_dec 0 q).
  - apply floor_abs, F. lra.
  - destruct (C q0) as [A B]. replace (m - 1) with (m + - (1)) in A by lia. rewrite qval_add in A.
    change (qv (- (1))) with (- qv 1)%Q in A. apply Qabs_case; lra.
Qed.
Theorem div_mul x y q : valid c x = true -> valid c y = true -> (~ qv y == 0)%Q -> spanc (qv x / qv y) ->
  fx_div c x y = Ok q -> spanc (qv q * qv y) ->
  exists p, fx_mul c q y = Ok p /\ valid c p = true /\ (Qabs (qv p - qv x) <= (Qabs (qv y) + 1) * qv 1)%Q.
Proof using All.
  intros X Y N S E T. pose proof (nz y N) as Ny. destruct (div_span x y X Y Ny S) as (q' & E1 & V1 & F1).
  rewrite E in E1. injection E1 as <-. destruct (mul_span q y V1 Y T) as (p & E2 & V2 & F2). exists p. repeat split; auto.
  pose proof (trunc_abs _ _ F1) as B1. pose proof (floor_abs _ _ F2) as B2.
  setoid_replace (qv p - qv x)%Q with ((qv p - qv q * qv y) + (qv q - qv x / qv y) * qv y)%Q by (field; auto).
  eapply Qle_trans; [apply Qabs_triangle|]. rewrite Qabs_Qmult.
  assert ((Qabs (qv q - qv x / qv y) * Qabs (qv y) <= qv 1 * Qabs (qv y))%Q) by (apply Qmult_le_compat_r; auto using Qabs_nonneg).
  lra.
Qed.
Theorem mul_div x y p : valid c x = true -> valid c y = true -> (~ qv y == 0)%Q -> spanc (qv x * qv y) ->
  fx_mul c x y = Ok p -> spanc (qv p / qv y) ->
  exists q, fx_div c p y = Ok q /\ valid c q = true /\ (Qabs (qv q - qv x) <= (/ Qabs (qv y) + 1) * qv 1)%Q.
Proof using All.
  intros X Y N S E T. pose proof (nz y N) as Ny. destruct (mul_span x y X Y S) as (q' & E1 & V1 & F1).
  rewrite E in E1. injection E1 as <-. destruct (div_span p y V1 Y Ny T) as (q & E2 & V2 & F2). exists q. repeat split; auto.
  pose proof (floor_abs _ _ F1) as B1. pose proof (trunc_abs _ _ F2) as B2.
  setoid_replace (qv q - qv x)%Q with ((qv q - qv p / qv y) + (qv p - qv x * qv y) * / qv y)%Q by (field; auto).
  eapply Qle_trans; [apply Qabs_triangle|]. rewrite Qabs_Qmult, Qabs_Qinv.
  assert (0 <= / Qabs (qv y))%Q by (apply Qinv_le_0_compat, Qabs_nonneg).
  assert ((Qabs (qv p - qv x * qv y) * / Qabs (qv y) <= qv 1 * / Qabs (qv y))%Q) by (apply Qmult_le_compat_r; auto).
  lra.
Qed.

(** zero products and quotients *)
Theorem mul_zero x y p : valid c x = true -> valid c y = true -> spanc (qv x * qv y) -> fx_mul c x y = Ok p ->
  ((qv p == 0)%Q <-> (0 <= qv x * qv y /\ qv x * qv y < qv 1)%Q) /\ ((qv p < 0)%Q <-> (qv x * qv y < 0)%Q).
Proof using All.
  intros X Y S E. destruct (mul_span x y X Y S) as (q' & E1 & V1 & [A B]). rewrite E in E1. injection E1 as <-.
  pose proof (qval_0 (cf c)) as Z0.
  repeat split; intros.
  - lra.
  - rewrite qval_add in B. lra.
  - assert (p < 1) by (apply (qval_lt (cf c)); lra). assert (-1 < p) by (cut (0 < p + 1); [lia|]; apply (qval_lt (cf c)); lra).
    replace p with 0 by lia. reflexivity.
  - assert (p + 1 <= 0) by (cut (p < 0); [lia|]; apply (qval_lt (cf c)); lra). apply (qval_le (cf c)) in H0. lra.
  - lra.
Qed.
Theorem div_zero x y p : valid c x = true -> valid c y = true -> (~ qv y == 0)%Q -> spanc (qv x / qv y) -> fx_div c x y = Ok p ->
  ((qv p == 0)%Q <-> (Qabs (qv x / qv y) < qv 1)%Q).
Proof using All.
  intros X Y N S E. destruct (div_span x y X Y (nz y N) S) as (q' & E1 & V1 & [Fl Ce]). rewrite E in E1. injection E1 as <-.
  pose proof (qval_0 (cf c)) as Z0. set (q := (qv x / qv y)%Q) in *. clearbody q. destruct (Qlt_le_dec 0 q) as [P|M].
  - destruct (Fl ltac:(lra)) as [A B]. rewrite Qabs_pos by lra. split; intros H.
    + rewrite qval_add in B. lra.
    + assert (p < 1) by (apply (qval_lt (cf c)); lra). assert (-1 < p) by (cut (0 < p + 1); [lia|]; apply (qval_lt (cf c)); lra).
      replace p with 0 by lia. reflexivity.
  - destruct (Ce M) as [A B]. rewrite Qabs_neg by lra. split; intros H.
    + replace (p - 1) with (p + - (1)) in A by lia. rewrite qval_add in A. change (qv (- (1))) with (- qv 1)%Q in A. lra.
    + assert (- (1) < p) by (apply (qval_lt (cf c)); change (qv (- (1))) with (- qv 1)%Q; lra).
      assert (p - 1 < 0) by (apply (qval_lt (cf c)); lra). replace p with 0 by lia. reflexivity.
Qed.
End LAW.
