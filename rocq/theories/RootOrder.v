(** Where the roots of fixed64 keep the order of their arguments. *)
From Coq Require Import ZArith QArith Qabs Lia Lqa Bool.
From Verif Require Import Base Fixed Math Spec BaseLemmas NewtonProofs CbrtThms.
Open Scope Z_scope.

Lemma q32_nonneg x : (0 <= qval 32 x)%Q <-> 0 <= x.
Proof. unfold qval, Qle. simpl. lia. Qed.
Lemma q32_le x y : (qval 32 x <= qval 32 y)%Q <-> x <= y.
Proof. unfold qval, Qle. cbn [Qnum Qden]. split; nia. Qed.

Lemma sqrt64_zero : fx_sqrt F64 0 = Ok 0.
Proof. vm_compute. reflexivity. Qed.

(** arguments at least 5/65536 apart keep their order *)
Lemma root_lt r s a b : 0 < r -> 0 < s -> r * r < b -> b <= a -> a < (s + 1) * (s + 1) -> r <= s.
Proof. nia. Qed.
Theorem sqrt64_apart x y : 0 <= x -> y < sqrt64_limit -> x + 327680 <= y ->
  exists r s, fx_sqrt F64 x = Ok r /\ fx_sqrt F64 y = Ok s /\ r <= s.
Proof.
  intros X Y A. destruct (sqrt64_main y ltac:(lia)) as (s & E & R & F & U & _).
  destruct (Z.eq_dec x 0) as [-> |N].
  { exists 0, s. rewrite sqrt64_zero. repeat split; auto. lia. }
  destruct (sqrt64_main x ltac:(lia)) as (r & E' & R' & F' & U' & _).
  exists r, s. repeat split; auto. apply far_sq in F'. unfold eps64 in F'. change (2 ^ 32) with 4294967296 in *.
  apply (root_lt r s (y * 4294967296) (x * 4294967296 + 327680 * 4294967296)); lia.
Qed.

(** and the result never falls by more than 0.0088 *)
Lemma gap_sq r s d : 0 < s -> s + 1 + d <= r -> 0 <= d -> d * d <= r * r - (s + 1) * (s + 1).
Proof. intros. assert (0 <= d * (s + 1)) by nia. assert ((s + 1 + d) * (s + 1 + d) <= r * r) by nia. nia. Qed.
Theorem sqrt64_fall x y : 0 <= x <= y -> y < sqrt64_limit ->
  exists r s, fx_sqrt F64 x = Ok r /\ fx_sqrt F64 y = Ok s /\ r - s <= 37515000.
Proof.
  intros X Y. destruct (Z.eq_dec x 0) as [-> |N].
  { exists 0. rewrite sqrt64_zero. destruct (Z.eq_dec y 0) as [-> |N'].
    - exists 0. rewrite sqrt64_zero. repeat split. lia.
    - destruct (sqrt64_main y ltac:(lia)) as (s & E & R & _). exists s. repeat split; auto. lia. }
  destruct (sqrt64_main y ltac:(lia)) as (s & E & R & F & U & _).
  destruct (sqrt64_main x ltac:(lia)) as (r & E' & R' & F' & U' & _).
  exists r, s. repeat split; auto. apply far_sq in F'. unfold eps64 in F'. change (2 ^ 32) with 4294967296 in *.
  destruct (Z_le_gt_dec (r - s) 37515000) as [G|G]; auto. exfalso.
  pose proof (gap_sq r s 37515000 ltac:(lia) ltac:(lia) ltac:(lia)) as Q.
  set (rr := r * r) in *. set (ss := (s + 1) * (s + 1)) in *. lia.
Qed.

(** ** cube roots *)
Lemma cube_lt a b : (0 <= a)%Q -> (0 <= b)%Q -> (a * a * a < b * b * b)%Q -> (a < b)%Q.
Proof.
  intros A B H. destruct (Qlt_le_dec a b) as [L|G]; auto. exfalso. revert H. apply Qle_not_lt.
  assert (b * b <= a * a)%Q by (apply Qmult_le_compat_nonneg; split; auto).
  apply Qmult_le_compat_nonneg; split; auto. apply Qmult_le_0_compat; auto.
Qed.
Theorem cbrt64_apart x y : (0 <= qval 32 x)%Q -> (qval 32 y <= 3868)%Q -> x + 1310736 <= y ->
  exists r s, fx_cbrt F64 x = Ok r /\ fx_cbrt F64 y = Ok s /\ (qval 32 r < qval 32 s)%Q.
Proof.
  intros X Y A.
  assert (LE : (qval 32 x <= qval 32 y)%Q) by (apply q32_le; lia).
  assert (AA : (qval 32 (x + 655376) <= qval 32 (y - 655360))%Q) by (apply q32_le; lia).
  destruct (cbrt64_q x X ltac:(lra)) as (r & E & V & P & L & U).
  destruct (cbrt64_q y ltac:(lra) Y) as (s & E' & V' & P' & L' & U').
  exists r, s. repeat split; auto. apply cube_lt; auto. lra.
Qed.

(** in rationals *)
Lemma q32_apart x y d : (qval 32 x + qval 32 d <= qval 32 y)%Q <-> x + d <= y.
Proof.
  assert (E : (qval 32 (x + d) == qval 32 x + qval 32 d)%Q) by (unfold qval, Qeq, Qplus; cbn [Qnum Qden]; rewrite Pos2Z.inj_mul; ring).
  rewrite <- E. apply q32_le.
Qed.
Theorem sqrt64_apart_q x y : (0 <= qval 32 x)%Q -> y < sqrt64_limit -> (qval 32 x + (5 # 65536) <= qval 32 y)%Q ->
  exists r s, fx_sqrt F64 x = Ok r /\ fx_sqrt F64 y = Ok s /\ (qval 32 r <= qval 32 s)%Q.
Proof.
  intros X Y A. rewrite q32_nonneg in X. assert (E : (5 # 65536 == qval 32 327680)%Q) by reflexivity.
  rewrite E in A. rewrite q32_apart in A. destruct (sqrt64_apart x y X Y A) as (r & s & R & S & L).
  exists r, s. rewrite q32_le. auto.
Qed.
Theorem sqrt64_fall_q x y : (0 <= qval 32 x)%Q -> (qval 32 x <= qval 32 y)%Q -> y < sqrt64_limit ->
  exists r s, fx_sqrt F64 x = Ok r /\ fx_sqrt F64 y = Ok s /\ (qval 32 r <= qval 32 s + (88 # 10000))%Q.
Proof.
  intros X A Y. rewrite q32_nonneg in X. rewrite q32_le in A.
  destruct (sqrt64_fall x y (conj X A) Y) as (r & s & R & S & L).
  exists r, s. repeat split; auto. unfold qval, Qle, Qplus. cbn [Qnum Qden]. rewrite ?Pos2Z.inj_mul.
  change (Z.pos (pow2p 32)) with 4294967296. lia.
Qed.
Theorem cbrt64_apart_q x y : (0 <= qval 32 x)%Q -> (qval 32 y <= 3868)%Q -> (qval 32 x + qval 32 1310736 <= qval 32 y)%Q ->
  exists r s, fx_cbrt F64 x = Ok r /\ fx_cbrt F64 y = Ok s /\ (qval 32 r < qval 32 s)%Q.
Proof. intros X Y A. rewrite q32_apart in A. apply cbrt64_apart; auto. Qed.
