(** Consequences of the characterisation of fixed32 square roots and hypotenuses. *)
From Coq Require Import ZArith QArith Qabs Lia Lqa Bool.
From Verif Require Import Base Fixed Math Spec SpecClient BaseLemmas SpecLemmas FixedLemmas ArithProofs ArithProofs2 MathThms NewtonProofs PowAcc ClientProofs LawProofs.
Open Scope Z_scope.

Notation qv := (qval 16).
Lemma v32 m : valid F32 m = true <-> - 2147483648 <= m <= 2147483647.
Proof. unfold valid, in_range, minv, maxv. cbn. rewrite andb_true_iff, !Z.leb_le. lia. Qed.
(** the root in raw integers *)
Lemma sqrt32_raw m : valid F32 m = true -> 0 <= m ->
  exists r, fx_sqrt F32 m = Ok r /\ valid F32 r = true /\ 0 <= r /\ r * r <= m * 65536 < (r + 1) * (r + 1).
Proof.
  intros V P. destruct (sqrt32_thm m V) as (r & E & Vr & R0 & R1 & R2).
  { unfold qval, Qle. cbn [Qnum Qden]. lia. }
  exists r. assert (0 <= r) by (unfold qval, Qle in R0; cbn [Qnum Qden] in R0; lia). repeat split; auto.
  - unfold qval, Qle, Qmult in R1. cbn [Qnum Qden] in R1. change (Z.pos (pow2p 16)) with 65536 in R1.
    change (Z.pos (pow2p 16 * pow2p 16)) with (65536 * 65536) in R1. lia.
  - specialize (R2 (r + 1)). unfold qval, Qlt, Qmult in R2. cbn [Qnum Qden] in R2. change (Z.pos (pow2p 16)) with 65536 in R2.
    change (Z.pos (pow2p 16 * pow2p 16)) with (65536 * 65536) in R2. specialize (R2 ltac:(lia)). lia.
Qed.
Lemma root_mono a b p q : 0 <= p -> 0 <= q -> p * p <= a -> b < (q + 1) * (q + 1) -> a <= b -> p <= q.
Proof. intros. nia. Qed.

Theorem sqrt32_mono a b : valid F32 a = true -> valid F32 b = true -> (0 <= qv a)%Q -> (qv a <= qv b)%Q ->
  exists p q, fx_sqrt F32 a = Ok p /\ fx_sqrt F32 b = Ok q /\ (qv p <= qv q)%Q.
Proof.
  intros A B Pa L. apply qval_le in L. assert (0 <= a) by (unfold qval, Qle in Pa; cbn [Qnum Qden] in Pa; lia).
  destruct (sqrt32_raw a A ltac:(lia)) as (p & E1 & V1 & P0 & P1 & P2). destruct (sqrt32_raw b B ltac:(lia)) as (q & E2 & V2 & Q0 & Q1 & Q2).
  exists p, q. repeat split; auto. apply qval_le. apply (root_mono (a * 65536) (b * 65536)); lia.
Qed.
(** perfect squares *)
Theorem sqrt32_exact r m : valid F32 r = true -> valid F32 m = true -> (0 <= qv r)%Q -> (qv m == qv r * qv r)%Q -> fx_sqrt F32 m = Ok r.
Proof.
  intros Vr Vm P E. assert (0 <= r) by (unfold qval, Qle in P; cbn [Qnum Qden] in P; lia).
  assert (X : m * 65536 = r * r).
  { unfold qval, Qeq, Qmult in E. cbn [Qnum Qden] in E. change (Z.pos (pow2p 16)) with 65536 in E.
    change (Z.pos (pow2p 16 * pow2p 16)) with (65536 * 65536) in E. lia. }
  destruct (sqrt32_raw m Vm ltac:(nia)) as (s & E1 & V1 & S0 & S1 & S2). rewrite E1. f_equal. nia.
Qed.
(** squaring the root *)
Theorem sqrt32_square m r : valid F32 m = true -> (0 <= qv m)%Q -> fx_sqrt F32 m = Ok r ->
  exists s, fx_mul F32 r r = Ok s /\ valid F32 s = true /\ (qv s <= qv m)%Q /\ (qv m - qv s <= (2 * qv r + 1) * qv 1 + qv 1)%Q.
Proof.
  intros V P E. assert (0 <= m) by (unfold qval, Qle in P; cbn [Qnum Qden] in P; lia).
  destruct (sqrt32_raw m V ltac:(auto)) as (r' & E1 & Vr & R0 & R1 & R2). rewrite E in E1. injection E1 as <-.
  assert (Hs : r * r / 65536 <= m) by (apply Z.div_le_upper_bound; lia).
  assert (Hl : 0 <= r * r / 65536) by (apply Z.div_pos; nia).
  assert (Vs : valid F32 (r * r / 65536) = true) by (apply v32; apply v32 in V; lia).
  exists (r * r / 65536). rewrite fx_mul_eq by auto. change (2 ^ cf F32) with 65536. rewrite valid_wrap by auto. repeat split; auto.
  - apply qval_le. auto.
  - assert (K : m * 65536 <= (r * r / 65536) * 65536 + 2 * r + 65536).
    { pose proof (Z.div_mod (r * r) 65536 ltac:(lia)). pose proof (Z.mod_pos_bound (r * r) 65536 ltac:(lia)). lia. }
    unfold qval, Qle, Qminus, Qplus, Qopp, Qmult. cbn [Qnum Qden]. repeat rewrite Pos2Z.inj_mul. change (Z.pos (pow2p 16)) with 65536. lia.
Qed.
(** rooting the square *)
Theorem sqrt32_of_square x : valid F32 x = true -> (qv x * qv x < qv 2147483648)%Q ->
  exists s r, fx_mul F32 x x = Ok s /\ fx_sqrt F32 s = Ok r /\ (qv r <= Qabs (qv x))%Q /\
  (qv x * qv x < qv (r + 1) * qv (r + 1) + qv 1)%Q.
Proof.
  intros V S.
  assert (L : x * x < 2147483648 * 65536).
  { unfold qval, Qlt, Qmult in S. cbn [Qnum Qden] in S. repeat rewrite Pos2Z.inj_mul in S. change (Z.pos (pow2p 16)) with 65536 in S. lia. }
  assert (Hl : 0 <= x * x / 65536) by (apply Z.div_pos; nia).
  assert (Hu : x * x / 65536 < 2147483648) by (apply Z.div_lt_upper_bound; lia).
  assert (Vs : valid F32 (x * x / 65536) = true) by (apply v32; lia).
  destruct (sqrt32_raw _ Vs Hl) as (r & E1 & Vr & R0 & R1 & R2).
  pose proof (Z.div_mod (x * x) 65536 ltac:(lia)). pose proof (Z.mod_pos_bound (x * x) 65536 ltac:(lia)).
  exists (x * x / 65536), r. rewrite fx_mul_eq by auto. change (2 ^ cf F32) with 65536. rewrite valid_wrap by auto. repeat split; auto.
  - rewrite qval_abs. apply qval_le. apply (root_mono (r * r) (x * x)); nia.
  - unfold qval, Qlt, Qplus, Qmult. cbn [Qnum Qden]. repeat rewrite Pos2Z.inj_mul. change (Z.pos (pow2p 16)) with 65536. nia.
Qed.

(** hypotenuse: monotone in each leg, and at least as long as each leg up to rounding *)
Lemma hyp_raw x y : valid F32 x = true -> valid F32 y = true -> x * x / 65536 + y * y / 65536 <= 2147483647 ->
  exists r, fx_hypot F32 x y = Ok r /\ valid F32 r = true /\ 0 <= r /\
    r * r <= (x * x / 65536 + y * y / 65536) * 65536 < (r + 1) * (r + 1).
Proof.
  intros X Y B.
  assert (0 <= x * x / 65536) by (apply Z.div_pos; nia). assert (0 <= y * y / 65536) by (apply Z.div_pos; nia).
  destruct (hypot32_thm x y (x * x / 65536) (y * y / 65536) X Y) as (r & E & V & R0 & R1 & R2).
  - apply (is_floor_mul 16); [lia|reflexivity].
  - apply (is_floor_mul 16); [lia|reflexivity].
  - unfold fits, lo, hi. change (2 ^ (32 - 1)) with 2147483648. lia.
  - exists r. assert (0 <= r) by (unfold qval, Qle in R0; cbn [Qnum Qden] in R0; lia). repeat split; auto.
    + unfold qval, Qle, Qmult in R1. cbn [Qnum Qden] in R1. repeat rewrite Pos2Z.inj_mul in R1. change (Z.pos (pow2p 16)) with 65536 in R1. lia.
    + unfold qval, Qlt, Qmult in R2. cbn [Qnum Qden] in R2. repeat rewrite Pos2Z.inj_mul in R2. change (Z.pos (pow2p 16)) with 65536 in R2. lia.
Qed.
Lemma sum_span x y : (qv x * qv x + qv y * qv y < qv 2147483648)%Q -> x * x / 65536 + y * y / 65536 <= 2147483647.
Proof.
  intros S. unfold qval, Qlt, Qplus, Qmult in S. cbn [Qnum Qden] in S. repeat rewrite Pos2Z.inj_mul in S. change (Z.pos (pow2p 16)) with 65536 in S.
  pose proof (Z.div_mod (x * x) 65536 ltac:(lia)). pose proof (Z.mod_pos_bound (x * x) 65536 ltac:(lia)).
  pose proof (Z.div_mod (y * y) 65536 ltac:(lia)). pose proof (Z.mod_pos_bound (y * y) 65536 ltac:(lia)). lia.
Qed.
Theorem hypot32_mono x y x' y' : valid F32 x = true -> valid F32 y = true -> valid F32 x' = true -> valid F32 y' = true ->
  (Qabs (qv x) <= Qabs (qv x'))%Q -> (Qabs (qv y) <= Qabs (qv y'))%Q -> (qv x' * qv x' + qv y' * qv y' < qv 2147483648)%Q ->
  exists r r', fx_hypot F32 x y = Ok r /\ fx_hypot F32 x' y' = Ok r' /\ (qv r <= qv r')%Q.
Proof.
  intros X Y X' Y' Lx Ly S. apply sum_span in S. rewrite !qval_abs in Lx, Ly. apply qval_le in Lx. apply qval_le in Ly.
  assert (Sx : x * x / 65536 <= x' * x' / 65536) by (apply Z.div_le_mono; [lia|]; nia).
  assert (Sy : y * y / 65536 <= y' * y' / 65536) by (apply Z.div_le_mono; [lia|]; nia).
  destruct (hyp_raw x y X Y ltac:(lia)) as (r & E & V & R0 & R1 & R2).
  destruct (hyp_raw x' y' X' Y' S) as (r' & E' & V' & R0' & R1' & R2').
  exists r, r'. repeat split; auto. apply qval_le.
  apply (root_mono ((x * x / 65536 + y * y / 65536) * 65536) ((x' * x' / 65536 + y' * y' / 65536) * 65536)); lia.
Qed.
(** r <= sqrt(x^2+y^2) < sqrt((r+ulp)^2 + 2 ulp), in squares *)
Theorem hypot32_bounds x y : valid F32 x = true -> valid F32 y = true -> (qv x * qv x + qv y * qv y < qv 2147483648)%Q ->
  exists r, fx_hypot F32 x y = Ok r /\ valid F32 r = true /\ (0 <= qv r)%Q /\ (qv r * qv r <= qv x * qv x + qv y * qv y)%Q /\
  (qv x * qv x + qv y * qv y < qv (r + 1) * qv (r + 1) + qv 2)%Q /\ (qv r <= Qabs (qv x) + Qabs (qv y))%Q.
Proof.
  intros X Y S. apply sum_span in S. destruct (hyp_raw x y X Y S) as (r & E & V & R0 & R1 & R2). exists r.
  pose proof (Z.div_mod (x * x) 65536 ltac:(lia)). pose proof (Z.mod_pos_bound (x * x) 65536 ltac:(lia)).
  pose proof (Z.div_mod (y * y) 65536 ltac:(lia)). pose proof (Z.mod_pos_bound (y * y) 65536 ltac:(lia)).
  repeat split; auto.
  - unfold qval, Qle. cbn [Qnum Qden]. lia.
  - unfold qval, Qle, Qplus, Qmult. cbn [Qnum Qden]. repeat rewrite Pos2Z.inj_mul. change (Z.pos (pow2p 16)) with 65536. nia.
  - unfold qval, Qlt, Qplus, Qmult. cbn [Qnum Qden]. repeat rewrite Pos2Z.inj_mul. change (Z.pos (pow2p 16)) with 65536. nia.
  - rewrite !qval_abs, <- qval_add. apply qval_le.
    assert (0 <= Z.abs x * Z.abs y) by nia. assert (Z.abs x * Z.abs x = x * x) by nia. assert (Z.abs y * Z.abs y = y * y) by nia.
    apply (root_mono (r * r) (x * x + y * y)); nia.
Qed.
