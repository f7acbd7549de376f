(** The specification relations of Spec.v as integer equations. *)
From Coq Require Import ZArith Bool List Lia QArith Zquot.
From Verif Require Import Spec.
Open Scope Z_scope.

Lemma pow2p_pos f : 0 <= f -> Z.pos (pow2p f) = 2 ^ f.
Proof. intros. unfold pow2p. apply Z2Pos.id, Z.pow_pos_nonneg; lia. Qed.

Lemma is_floor_Qeq f p q m : (p == q)%Q -> is_floor f p m -> is_floor f q m.
Proof. unfold is_floor. intros E. rewrite E. auto. Qed.
Lemma is_ceil_Qeq f p q m : (p == q)%Q -> is_ceil f p m -> is_ceil f q m.
Proof. unfold is_ceil. intros E. rewrite E. auto. Qed.
Lemma is_trunc_Qeq f p q m : (p == q)%Q -> is_trunc f p m -> is_trunc f q m.
Proof. unfold is_trunc, is_floor, is_ceil. intros E. rewrite E. auto. Qed.
Lemma is_nearest_away_Qeq f p q m : (p == q)%Q -> is_nearest_away f p m -> is_nearest_away f q m.
Proof. unfold is_nearest_away. intros E. rewrite E. auto. Qed.

Lemma is_floor_iff f a b r : 0 <= f -> is_floor f (a # b) r <-> r = (a * 2 ^ f) / Z.pos b.
Proof.
  intros Hf. unfold is_floor, qval, Qle, Qlt; cbn [Qnum Qden]. rewrite !pow2p_pos by lia.
  split.
  - intros [H1 H2]. apply Z.div_unique_pos with (r := a * 2 ^ f - r * Z.pos b); lia.
  - intros ->. pose proof (Z.div_mod (a * 2 ^ f) (Z.pos b) ltac:(lia)).
    pose proof (Z.mod_pos_bound (a * 2 ^ f) (Z.pos b) ltac:(lia)). lia.
Qed.

Lemma is_ceil_iff f a b r : 0 <= f -> is_ceil f (a # b) r <-> r = - ((- a * 2 ^ f) / Z.pos b).
Proof.
  intros Hf. unfold is_ceil, qval, Qle, Qlt; cbn [Qnum Qden]. rewrite !pow2p_pos by lia.
  split.
  - intros [H1 H2].
    enough (- r = (- a * 2 ^ f) / Z.pos b) by lia.
    apply Z.div_unique_pos with (r := r * Z.pos b - a * 2 ^ f); lia.
  - intros ->. pose proof (Z.div_mod (- a * 2 ^ f) (Z.pos b) ltac:(lia)).
    pose proof (Z.mod_pos_bound (- a * 2 ^ f) (Z.pos b) ltac:(lia)). lia.
Qed.

Lemma Qle0_iff a b : (0 <= a # b)%Q <-> 0 <= a.
Proof. unfold Qle; cbn [Qnum Qden]. lia. Qed.
Lemma Qge0_iff a b : (a # b <= 0)%Q <-> a <= 0.
Proof. unfold Qle; cbn [Qnum Qden]. lia. Qed.

Lemma quot_pos_div a b : 0 <= a -> 0 < b -> Z.quot a b = a / b.
Proof. intros. apply Z.quot_div_nonneg; lia. Qed.
Lemma quot_neg_div a b : a <= 0 -> 0 < b -> Z.quot a b = - ((- a) / b).
Proof.
  intros. rewrite <- (Z.opp_involutive a) at 1. rewrite Z.quot_opp_l by lia.
  rewrite Z.quot_div_nonneg by lia. reflexivity.
Qed.

Lemma is_trunc_iff f a b r : 0 <= f -> is_trunc f (a # b) r <-> r = Z.quot (a * 2 ^ f) (Z.pos b).
Proof.
  intros Hf. pose proof (Z.pow_pos_nonneg 2 f ltac:(lia) Hf) as P.
  unfold is_trunc. rewrite Qle0_iff, Qge0_iff, is_floor_iff, is_ceil_iff by lia.
  split.
  - intros [H1 H2]. destruct (Z_le_gt_dec 0 a).
    + rewrite quot_pos_div by nia. apply H1; auto.
    + rewrite quot_neg_div by nia. rewrite H2 by lia. f_equal. f_equal. lia.
  - intros ->. split; intros.
    + apply quot_pos_div; nia.
    + rewrite quot_neg_div by nia. f_equal. f_equal. lia.
Qed.

(** nearest, ties away: floor(|a|*2^f/b + 1/2) with the sign of a *)
Lemma is_nearest_away_iff f a b r : 0 <= f ->
  is_nearest_away f (a # b) r <->
  r = (if 0 <=? a then (2 * a * 2 ^ f + Z.pos b) / (2 * Z.pos b)
       else - ((2 * (- a) * 2 ^ f + Z.pos b) / (2 * Z.pos b))).
Proof.
  intros Hf. pose proof (Z.pow_pos_nonneg 2 f ltac:(lia) Hf) as P.
  unfold is_nearest_away. rewrite Qle0_iff, Qge0_iff.
  unfold qval, Qle, Qlt; cbn [Qnum Qden]. rewrite !pow2p_pos by lia.
  rewrite Z.pow_add_r by lia. change (2 ^ 1) with 2.
  destruct (Z.leb_spec 0 a).
  - split.
    + intros [H1 _]. specialize (H1 H).
      apply Z.div_unique_pos with (r := 2 * a * 2 ^ f + Z.pos b - r * (2 * Z.pos b)); lia.
    + intros ->.
      pose proof (Z.div_mod (2 * a * 2 ^ f + Z.pos b) (2 * Z.pos b) ltac:(lia)).
      pose proof (Z.mod_pos_bound (2 * a * 2 ^ f + Z.pos b) (2 * Z.pos b) ltac:(lia)).
      split; [lia|]. intros. assert (a = 0) by lia. subst a. cbn in *.
      rewrite Z.div_small by lia. lia.
  - split.
    + intros [_ H2]. specialize (H2 ltac:(lia)).
      enough (- r = (2 * (- a) * 2 ^ f + Z.pos b) / (2 * Z.pos b)) by lia.
      apply Z.div_unique_pos with (r := 2 * (- a) * 2 ^ f + Z.pos b + r * (2 * Z.pos b)); lia.
    + intros ->.
      pose proof (Z.div_mod (2 * (- a) * 2 ^ f + Z.pos b) (2 * Z.pos b) ltac:(lia)).
      pose proof (Z.mod_pos_bound (2 * (- a) * 2 ^ f + Z.pos b) (2 * Z.pos b) ltac:(lia)).
      split; [lia|]. intros. lia.
Qed.

(** products and quotients of denoted values *)
Lemma qval_mult f x y : 0 <= f -> (qval f x * qval f y == (x * y) # (pow2p f * pow2p f))%Q.
Proof. intros. reflexivity. Qed.

Lemma qval_div f x y : 0 <= f -> y <> 0 ->
  (qval f x / qval f y == (x * Z.sgn y) # (Z.to_pos (Z.abs y)))%Q.
Proof.
  intros Hf Hy. pose proof (pow2p_pos f Hf) as E.
  unfold Qdiv, Qinv, qval, Qmult, Qeq; cbn [Qnum Qden].
  destruct y as [|p|p]; [lia| |]; cbn [Qnum Qden Z.sgn Z.abs Z.to_pos]; lia.
Qed.

Lemma is_floor_mul f x y r : 0 <= f ->
  is_floor f (qval f x * qval f y) r <-> r = x * y / 2 ^ f.
Proof.
  intros Hf. pose proof (Z.pow_pos_nonneg 2 f ltac:(lia) Hf) as P.
  rewrite <- (Z.div_mul_cancel_r (x * y) (2 ^ f) (2 ^ f)) by lia.
  pose proof (is_floor_iff f (x * y) (pow2p f * pow2p f) r Hf) as I.
  rewrite Pos2Z.inj_mul, !pow2p_pos in I by lia. exact I.
Qed.

Lemma is_trunc_div f x y r : 0 <= f -> y <> 0 ->
  is_trunc f (qval f x / qval f y) r <-> r = Z.quot (x * 2 ^ f) y.
Proof.
  intros Hf Hy.
  assert (E : Z.quot (x * 2 ^ f) y = Z.quot ((x * Z.sgn y) * 2 ^ f) (Z.pos (Z.to_pos (Z.abs y)))).
  { rewrite Z2Pos.id by lia. destruct y as [|p|p]; [lia| |]; cbn [Z.sgn Z.abs].
    - f_equal; lia.
    - rewrite <- Pos2Z.opp_pos. rewrite Z.quot_opp_r by lia.
      replace (x * -1 * 2 ^ f) with (- (x * 2 ^ f)) by lia. rewrite Z.quot_opp_l by lia. reflexivity. }
  rewrite E, <- is_trunc_iff by lia.
  split; apply is_trunc_Qeq; [|symmetry]; apply qval_div; auto.
Qed.

Lemma is_floor_int f m n : 0 <= f -> is_floor 0 (qval f m) n <-> n = m / 2 ^ f.
Proof. intros. unfold qval. rewrite is_floor_iff, pow2p_pos, Z.mul_1_r by lia. reflexivity. Qed.
Lemma is_trunc_int f m n : 0 <= f -> is_trunc 0 (qval f m) n <-> n = Z.quot m (2 ^ f).
Proof. intros. unfold qval. rewrite is_trunc_iff, pow2p_pos, Z.mul_1_r by lia. reflexivity. Qed.
Lemma is_ceil_int f m n : 0 <= f -> is_ceil 0 (qval f m) n <-> n = - ((- m) / 2 ^ f).
Proof. intros. unfold qval. rewrite is_ceil_iff, pow2p_pos, Z.mul_1_r by lia. reflexivity. Qed.

Lemma is_trunc_narrow f f' m r : 0 <= f <= f' ->
  is_trunc f (qval f' m) r <-> r = Z.quot m (2 ^ (f' - f)).
Proof.
  intros. unfold qval. rewrite is_trunc_iff, pow2p_pos by lia.
  replace (2 ^ f') with (2 ^ (f' - f) * 2 ^ f) by (rewrite <- Z.pow_add_r by lia; f_equal; lia).
  rewrite Z.quot_mul_cancel_r; [reflexivity| |]; apply Z.pow_nonzero; lia.
Qed.

Lemma qval_shift f d m : 0 <= f -> 0 <= d -> (qval (f + d) (m * 2 ^ d) == qval f m)%Q.
Proof.
  intros. unfold qval, Qeq; cbn [Qnum Qden]. rewrite !pow2p_pos, Z.pow_add_r by lia. lia.
Qed.

Lemma qval_eq_shift f d m n : 0 <= f -> 0 <= d -> (qval (f + d) n == qval f m)%Q -> n = m * 2 ^ d.
Proof.
  intros Hf Hd. unfold qval, Qeq; cbn [Qnum Qden]. rewrite !pow2p_pos, Z.pow_add_r by lia.
  pose proof (Z.pow_pos_nonneg 2 f ltac:(lia) Hf). nia.
Qed.
