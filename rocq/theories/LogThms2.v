(** log2 at powers of two and doubled arguments, stated on values. *)
From Coq Require Import ZArith QArith Qpower Lia.
From Verif Require Import Base Fixed Math Spec SpecLemmas StdProofs LogMono.
Open Scope Z_scope.

Lemma pow2_val f m k : 0 <= f -> (qval f m == 2 ^ k)%Q -> 0 <= k + f /\ m = 2 ^ (k + f).
Proof.
  intros F H. unfold qval in H.
  assert (EP : Z.pos (pow2p f) = 2 ^ f) by (unfold pow2p; apply Z2Pos.id, Z.pow_pos_nonneg; lia).
  destruct (Z.le_gt_cases 0 k) as [K|K].
  - split; [lia|]. change 2%Q with (inject_Z 2) in H; rewrite <- (Zpower_Qpower 2 k) in H by auto. unfold Qeq, inject_Z in H. cbn [Qnum Qden] in H. rewrite EP in H.
    rewrite Z.pow_add_r by lia. lia.
  - assert (E : (2 ^ k == 1 # Z.to_pos (2 ^ (- k)))%Q).
    { replace k with (- (- k)) at 1 by lia. rewrite Qpower_opp. change 2%Q with (inject_Z 2); rewrite <- (Zpower_Qpower 2 (- k)) by lia.
      assert (P : 0 < 2 ^ (- k)) by (apply Z.pow_pos_nonneg; lia). destruct (2 ^ (- k)); try lia. reflexivity. }
    rewrite E in H. unfold Qeq in H. cbn [Qnum Qden] in H. assert (P : 0 < 2 ^ (- k)) by (apply Z.pow_pos_nonneg; lia).
    rewrite EP, Z2Pos.id in H by auto.
    assert (0 <= k + f).
    { destruct (Z.le_gt_cases 0 (k + f)); auto. exfalso. assert (2 ^ f < 2 ^ (- k)) by (apply Z.pow_lt_mono_r; lia).
      assert (0 < 2 ^ f) by (apply Z.pow_pos_nonneg; lia). clear - H H1 H2 P. set (a := 2 ^ f) in *. set (b := 2 ^ (- k)) in *. clearbody a b. destruct (Z.le_gt_cases m 0); nia. }
    split; auto. assert (2 ^ f = 2 ^ (k + f) * 2 ^ (- k)) by (rewrite <- Z.pow_add_r by lia; f_equal; lia).
    rewrite H1, Z.mul_1_l in H. apply Z.mul_reg_r in H; lia.
Qed.
Lemma qval_int f k : 0 <= f -> (qval f (k * 2 ^ f) == inject_Z k)%Q.
Proof.
  intros F. unfold qval, Qeq, inject_Z. cbn [Qnum Qden].
  assert (EP : Z.pos (pow2p f) = 2 ^ f) by (unfold pow2p; apply Z2Pos.id, Z.pow_pos_nonneg; lia). rewrite EP. ring.
Qed.
Theorem log2_pow2_thm c m k : std c -> valid c m = true -> (qval (cf c) m == 2 ^ k)%Q ->
  exists r, fx_log2 c m = Ok r /\ (qval (cf c) r == inject_Z k)%Q.
Proof.
  intros HS V H. pose proof (std_f c HS) as HF. apply pow2_val in H; [|lia]. destruct H as (K & ->).
  rewrite (log2_pow2 c HS) by auto. eexists. split; [reflexivity|]. replace (k + cf c - cf c) with k by lia. apply qval_int; lia.
Qed.
Theorem log2_double_thm c m : std c -> valid c m = true -> 0 < m -> valid c (2 * m) = true ->
  exists r s, fx_log2 c m = Ok r /\ fx_log2 c (2 * m) = Ok s /\ (qval (cf c) s == qval (cf c) r + 1)%Q.
Proof.
  intros HS V P V2. pose proof (std_f c HS) as HF. destruct (log2_shape c HS m V P) as (e & x & E & _).
  eexists. eexists. split; [exact E|]. split; [apply (log2_double c HS); eauto|].
  rewrite <- (qval_int (cf c) 1) by lia. rewrite Z.mul_1_l. unfold qval. rewrite <- Qinv_plus_distr. reflexivity.
Qed.
Theorem log_mono_thm c m n : std c -> valid c m = true -> valid c n = true -> 0 < m -> m <= n ->
  (forall r s, fx_log2 c m = Ok r -> fx_log2 c n = Ok s -> r <= s) /\
  (forall r s, fx_log c m = Ok r -> fx_log c n = Ok s -> r <= s) /\
  (forall r s, fx_log10 c m = Ok r -> fx_log10 c n = Ok s -> r <= s).
Proof.
  intros HS V V' P L. split; [|split]; intros r s E E'; [eapply (log2_mono c HS m n)|eapply (log_mono c m n)|eapply (log10_mono c m n)]; eauto.
Qed.
