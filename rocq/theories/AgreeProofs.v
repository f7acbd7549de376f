(** The two implementations of sine and cosine agree; witnesses for the inverse functions. *)
From Coq Require Import ZArith QArith Reals Lia Lra Bool.
From Interval Require Import Tactic.
From Verif Require Import Base Fixed Math Cordic Spec SpecReal BaseLemmas FixedLemmas RealLemmas StdProofs SinThms RealThms CordicThms.
Open Scope R_scope.

Ltac r16 := unfold rval; change (IZR (2 ^ 16)) with 65536.
Lemma sin_asin_refuted : exists m a s, 0 < rval 16 m < 1 /\ fx_asin F32 m = Ok a /\ fx_sin F32 a = Ok s /\ rval 16 s < - 0.27.
Proof. exists 60000%Z, (-430225)%Z, (-18208)%Z. split; [r16; split; lra|]. split; [vm_compute; reflexivity|]. split; [vm_compute; reflexivity|]. r16. lra. Qed.
Lemma asin_sin_refuted : exists m s a, 0 < rval 16 m < 1.1 /\ fx_sin F32 m = Ok s /\ fx_asin F32 s = Ok a /\ rval 16 a < 0.
Proof. exists 70000%Z, 57429%Z, (-2854)%Z. split; [r16; split; lra|]. split; [vm_compute; reflexivity|]. split; [vm_compute; reflexivity|]. r16. lra. Qed.
Lemma acos_cos_refuted : exists m s a, 0.6 < rval 16 m < 1 /\ fx_cos F32 m = Ok s /\ fx_acos F32 s = Ok a /\ 0.1 < rval 16 a - rval 16 m.
Proof. exists 40000%Z, 53704%Z, 46839%Z. split; [r16; split; lra|]. split; [vm_compute; reflexivity|]. split; [vm_compute; reflexivity|]. r16. lra. Qed.
Lemma tan_atan_refuted : exists m a t, rval 16 m = 2 /\ fx_atan F32 m = Ok a /\ fx_tan F32 a = Ok t /\ rval 16 t < -10.
Proof. exists 131072%Z, (-96632)%Z, (-678707)%Z. split; [r16; lra|]. split; [vm_compute; reflexivity|]. split; [vm_compute; reflexivity|]. r16. lra. Qed.
Lemma atan_tan_refuted : exists m t a, 0 < rval 16 m < 1.1 /\ fx_tan F32 m = Ok t /\ fx_atan F32 t = Ok a /\ rval 16 a < 0.
Proof. exists 70000%Z, 119201%Z, (-2854)%Z. split; [r16; split; lra|]. split; [vm_compute; reflexivity|]. split; [vm_compute; reflexivity|]. r16. lra. Qed.

Lemma via a b t d e : Rabs (a - t) <= d -> Rabs (b - t) <= e -> Rabs (b - a) <= d + e.
Proof. intros X Y. apply Rabs_inv_le in X, Y. apply Rabs_le. split; lra. Qed.
Lemma nn f m : (0 <= m)%Z -> Rabs (rval f m) = rval f m \/ (f < 0)%Z.
Proof.
  intros H. destruct (Z_lt_dec f 0); [right; auto|left]. apply Rabs_pos_eq. unfold rval.
  apply Rmult_le_pos; [apply IZR_le; auto|]. left. apply Rinv_0_lt_compat. apply IZR_lt. apply Z.pow_pos_nonneg; lia.
Qed.
Lemma agree_sin32 m : valid F32 m = true -> (0 <= m)%Z -> exists a b, fx_sin F32 m = Ok a /\ cordic_sine32 m = Ok b /\
  Rabs (rval 16 b - rval 16 a) <= (93 + 0.283 * rval 16 m) * ulp 16.
Proof.
  intros V P. destruct (sin32_thm m V ltac:(unfold MIN32; lia)) as (a & Ea & _ & Ba). destruct (sine32_ok m V P) as (b & Eb & Bb).
  exists a, b. split; [exact Ea|]. split; [exact Eb|]. destruct (nn 16 m P) as [N|]; [|lia]. rewrite N in Ba.
  assert (U : ulp 16 = / 65536) by reflexivity. rewrite U in *. pose proof (Rabs_pos (rval 16 m)) as Q. rewrite N in Q.
  eapply Rle_trans; [eapply via; [exact Ba|exact Bb]|]. lra.
Qed.
Lemma agree_cos32 m : valid F32 m = true -> (0 <= m)%Z -> exists a b, fx_cos F32 m = Ok a /\ cordic_cosine32 m = Ok b /\
  Rabs (rval 16 b - rval 16 a) <= (95 + 0.283 * rval 16 m) * ulp 16.
Proof.
  intros V P. destruct (cos32_thm m V) as (a & Ea & _ & Ba). destruct (cosine32_ok m V P) as (b & Eb & Bb).
  exists a, b. split; [exact Ea|]. split; [exact Eb|]. destruct (nn 16 m P) as [N|]; [|lia]. rewrite N in Ba.
  assert (U : ulp 16 = / 65536) by reflexivity. rewrite U in *. pose proof (Rabs_pos (rval 16 m)) as Q. rewrite N in Q.
  eapply Rle_trans; [eapply via; [exact Ba|exact Bb]|]. lra.
Qed.
Lemma agree_sin64 m : valid F64 m = true -> (0 <= m)%Z -> exists a b, fx_sin F64 m = Ok a /\ cordic_sine64 m = Ok b /\
  Rabs (rval 32 b - rval 32 a) <= 3.73e-6 + 0.175 * rval 32 m * ulp 32.
Proof.
  intros V P. destruct (sin64_thm m V ltac:(unfold MIN64; lia)) as (a & Ea & _ & _ & Ba). destruct (sine64_ok m V P) as (b & Eb & Bb).
  specialize (Ba (or_introl P)).
  exists a, b. split; [exact Ea|]. split; [exact Eb|]. destruct (nn 32 m P) as [N|]; [|lia]. rewrite N in Ba.
  assert (U : ulp 32 = / 4294967296) by reflexivity. rewrite U in *. pose proof (Rabs_pos (rval 32 m)) as Q. rewrite N in Q.
  eapply Rle_trans; [eapply via; [exact Ba|exact Bb]|]. lra.
Qed.
Lemma agree_cos64 m : valid F64 m = true -> (0 <= m)%Z -> exists a b, fx_cos F64 m = Ok a /\ cordic_cosine64 m = Ok b /\
  Rabs (rval 32 b - rval 32 a) <= 3.201e-4 + 0.175 * rval 32 m * ulp 32.
Proof.
  intros V P. destruct (cos64_thm m V) as (a & Ea & _ & Ba). destruct (cosine64_ok m V P) as (b & Eb & Bb).
  exists a, b. split; [exact Ea|]. split; [exact Eb|]. destruct (nn 32 m P) as [N|]; [|lia]. rewrite N in Ba.
  assert (U : ulp 32 = / 4294967296) by reflexivity. rewrite U in *. pose proof (Rabs_pos (rval 32 m)) as Q. rewrite N in Q.
  eapply Rle_trans; [eapply via; [exact Ba|exact Bb]|]. lra.
Qed.
Lemma agree_refuted : exists m a b, valid F32 m = true /\ fx_sin F32 m = Ok a /\ cordic_sine32 m = Ok b /\ 0.5 < Rabs (rval 16 b - rval 16 a).
Proof.
  exists (-65536)%Z, (-55147)%Z, (-16526)%Z. split; [reflexivity|]. split; [vm_compute; reflexivity|]. split; [apply case87|].
  r16. rewrite Rabs_pos_eq; lra.
Qed.
