(** The inverse trigonometric functions undo the trigonometric ones, within the sum of their errors. *)
From Coq Require Import ZArith QArith Reals Lia Lra Psatz Bool.
From Interval Require Import Tactic.
From Verif Require Import Base Fixed Math Spec SpecLemmas SpecReal BaseLemmas FixedLemmas CLemmas RealLemmas StdProofs SinProofs SinThms AtanProofs AsinAcc CordicThms RealThms DerivedReal.
Open Scope R_scope.

(** ** the real functions *)
Lemma asin_bd s : Rabs s <= 0.7 -> Rabs (asin s) <= 0.776.
Proof.
  intros H. apply Rabs_inv_le in H. pose proof (asin_bound s) as [L U]. pose proof (sin_asin s ltac:(split; lra)) as E.
  assert (HP : 1.57 < PI / 2) by interval. apply Rabs_le. split.
  - destruct (Rle_lt_dec (- 0.776) (asin s)); [lra|]. exfalso.
    assert (sin (asin s) < sin (- 0.776)) by (apply sin_increasing_1; lra). assert (sin (- 0.776) < - 0.7) by (clear; interval). lra.
  - destruct (Rle_lt_dec (asin s) 0.776); [lra|]. exfalso.
    assert (sin 0.776 < sin (asin s)) by (apply sin_increasing_1; lra). assert (0.7 < sin 0.776) by (clear; interval). lra.
Qed.
Lemma sin_exp a b : Rabs a <= 0.78 -> Rabs b <= 0.78 -> Rabs (a - b) <= 1.41 * Rabs (sin a - sin b).
Proof.
  intros A B. apply Rabs_inv_le in A. apply Rabs_inv_le in B.
  assert (W : forall x y, - 0.78 <= x -> y <= 0.78 -> x < y -> Rabs (y - x) <= 1.41 * Rabs (sin y - sin x)).
  { intros x y X Y L. destruct (MVT_cor2 sin cos x y L) as (t & E & T); [intros; apply derivable_pt_lim_sin|].
    rewrite E, Rabs_mult. assert (0.71 <= cos t) by (assert (- 0.78 <= t <= 0.78) by lra; interval).
    rewrite (Rabs_pos_eq (cos t)) by lra. pose proof (Rabs_pos (y - x)). nra. }
  destruct (Rtotal_order a b) as [L|[-> |L]].
  - rewrite (Rabs_minus_sym a b), (Rabs_minus_sym (sin a)). apply W; lra.
  - rewrite !Rminus_eq_0, Rabs_R0. lra.
  - apply W; lra.
Qed.
Lemma tan_lip a b : Rabs a <= 0.7864 -> Rabs b <= 0.7864 -> Rabs (tan a - tan b) <= 2.005 * Rabs (a - b).
Proof.
  intros A B. apply Rabs_inv_le in A. apply Rabs_inv_le in B.
  assert (CA : 0.7063 <= cos a) by interval. assert (CB : 0.7063 <= cos b) by interval.
  assert (E : tan a - tan b = sin (a - b) * / (cos a * cos b)) by (rewrite sin_minus; unfold tan; field; lra).
  rewrite E, Rabs_mult. assert (P : 0.498859 <= cos a * cos b) by nra.
  rewrite (Rabs_pos_eq (/ _)) by (left; apply Rinv_0_lt_compat; lra).
  assert (I : / (cos a * cos b) <= 2.005). { rewrite <- (Rinv_inv 2.005). apply Rinv_le_contravar; lra. }
  pose proof (sin_lip (a - b) 0) as S. rewrite sin_0, !Rminus_0_r in S.
  pose proof (Rabs_pos (sin (a - b))). pose proof (Rabs_pos (a - b)).
  apply Rle_trans with (Rabs (sin (a - b)) * 2.005); [apply Rmult_le_compat_l; auto|]. lra.
Qed.
Lemma tri a b c d e : Rabs (a - b) <= d -> Rabs (b - c) <= e -> Rabs (a - c) <= d + e.
Proof. intros. replace (a - c) with ((a - b) + (b - c)) by ring. eapply Rle_trans; [apply Rabs_triang|lra]. Qed.
Lemma near a b d e : Rabs (a - b) <= d -> Rabs b <= e -> Rabs a <= d + e.
Proof. intros. replace a with ((a - b) + b) by ring. eapply Rle_trans; [apply Rabs_triang|lra]. Qed.

Lemma not_min32 m : Rabs (rval 16 m) <= 30000 -> m <> MIN32.
Proof. intros H ->. apply Rabs_inv_le in H. unfold rval, MIN32 in H. change (IZR (2 ^ 16)) with 65536 in H. lra. Qed.
Lemma not_min64 m : Rabs (rval 32 m) <= 30000 -> m <> MIN64.
Proof. intros H ->. apply Rabs_inv_le in H. unfold rval, MIN64 in H. change (IZR (2 ^ 32)) with 4294967296 in H. lra. Qed.
Lemma val32 m : Rabs (rval 16 m) <= 30000 -> valid F32 m = true.
Proof.
  intros H. apply Rabs_inv_le in H. unfold rval in H. change (IZR (2 ^ 16)) with 65536 in H. apply valid32.
  assert (-1966080000 <= m <= 1966080000)%Z; [split; apply le_IZR; lra|lia].
Qed.
Lemma val64 m : Rabs (rval 32 m) <= 30000 -> valid F64 m = true.
Proof.
  intros H. apply Rabs_inv_le in H. unfold rval in H. change (IZR (2 ^ 32)) with 4294967296 in H. apply valid64.
  assert (-128849018880000 <= m <= 128849018880000)%Z; [split; apply le_IZR; lra|lia].
Qed.
Lemma u16 : ulp 16 = / 65536. Proof. reflexivity. Qed.
Lemma u32 : ulp 32 = / 4294967296. Proof. reflexivity. Qed.

(** ** sine *)
Lemma sin_asin32 m : Rabs (rval 16 m) <= 0.7 -> exists a s, fx_asin F32 m = Ok a /\ fx_sin F32 a = Ok s /\
  Rabs (rval 16 s - rval 16 m) <= 7.5e-4.
Proof.
  intros H. destruct (asin32_acc m H) as (a & Ea & Va & Ba). exists a.
  assert (NA : Rabs (rval 16 a) <= 5e-4 + 0.776) by (eapply near; [exact Ba|apply asin_bd; auto]).
  destruct (sin32_thm a Va (not_min32 a ltac:(lra))) as (s & Es & Vs & Bs). exists s. repeat (split; [assumption|]).
  rewrite u16 in Bs. apply Rabs_inv_le in H. rewrite <- (sin_asin (rval 16 m)) by (split; lra).
  eapply Rle_trans; [eapply tri; [exact Bs|eapply Rle_trans; [apply sin_lip|exact Ba]]|]. pose proof (Rabs_pos (rval 16 a)). lra.
Qed.
Lemma sin_asin64 m : Rabs (rval 32 m) <= 0.7 -> exists a s, fx_asin F64 m = Ok a /\ fx_sin F64 a = Ok s /\
  Rabs (rval 32 s - rval 32 m) <= 6.61e-4.
Proof.
  intros H. destruct (asin64_acc m H) as (a & Ea & Va & Ba). exists a.
  assert (NA : Rabs (rval 32 a) <= 3.5e-4 + 0.776) by (eapply near; [exact Ba|apply asin_bd; auto]).
  destruct (sin64_thm a Va (not_min64 a ltac:(lra))) as (s & Es & Vs & Bs & _). exists s. repeat (split; [assumption|]).
  rewrite u32 in Bs. apply Rabs_inv_le in H. rewrite <- (sin_asin (rval 32 m)) by (split; lra).
  eapply Rle_trans; [eapply tri; [exact Bs|eapply Rle_trans; [apply sin_lip|exact Ba]]|]. pose proof (Rabs_pos (rval 32 a)). lra.
Qed.
Lemma sin_small x : Rabs x <= 0.77 -> Rabs (sin x) <= 0.6962.
Proof. intros H. apply Rabs_inv_le in H. apply Rabs_le. split; interval with (i_bisect x). Qed.
Lemma asin_sin32 m : Rabs (rval 16 m) <= 0.77 -> exists s a, fx_sin F32 m = Ok s /\ fx_asin F32 s = Ok a /\
  Rabs (rval 16 a - rval 16 m) <= 8.5e-4.
Proof.
  intros H. destruct (sin32_thm m (val32 m ltac:(lra)) (not_min32 m ltac:(lra))) as (s & Es & Vs & Bs). exists s.
  assert (Bs' : Rabs (rval 16 s - sin (rval 16 m)) <= 2.459e-4) by (rewrite u16 in Bs; pose proof (Rabs_pos (rval 16 m)); lra).
  assert (NS : Rabs (rval 16 s) <= 2.459e-4 + 0.6962) by (eapply near; [exact Bs'|apply sin_small; auto]).
  destruct (asin32_acc s ltac:(lra)) as (a & Ea & Va & Ba). exists a. repeat (split; [assumption|]).
  assert (X : Rabs (asin (rval 16 s) - rval 16 m) <= 1.41 * 2.459e-4).
  { eapply Rle_trans; [apply sin_exp; [pose proof (asin_bd (rval 16 s) ltac:(lra)); lra|lra]|].
    apply Rabs_inv_le in NS. rewrite sin_asin by (split; lra). lra. }
  eapply Rle_trans; [eapply tri; [exact Ba|exact X]|]. lra.
Qed.
Lemma asin_sin64 m : Rabs (rval 32 m) <= 0.77 -> exists s a, fx_sin F64 m = Ok s /\ fx_asin F64 s = Ok a /\
  Rabs (rval 32 a - rval 32 m) <= 7.9e-4.
Proof.
  intros H. destruct (sin64_thm m (val64 m ltac:(lra)) (not_min64 m ltac:(lra))) as (s & Es & Vs & Bs & _). exists s.
  assert (Bs' : Rabs (rval 32 s - sin (rval 32 m)) <= 3.101e-4) by (rewrite u32 in Bs; pose proof (Rabs_pos (rval 32 m)); lra).
  assert (NS : Rabs (rval 32 s) <= 3.101e-4 + 0.6962) by (eapply near; [exact Bs'|apply sin_small; auto]).
  destruct (asin64_acc s ltac:(lra)) as (a & Ea & Va & Ba). exists a. repeat (split; [assumption|]).
  assert (X : Rabs (asin (rval 32 s) - rval 32 m) <= 1.41 * 3.101e-4).
  { eapply Rle_trans; [apply sin_exp; [pose proof (asin_bd (rval 32 s) ltac:(lra)); lra|lra]|].
    apply Rabs_inv_le in NS. rewrite sin_asin by (split; lra). lra. }
  eapply Rle_trans; [eapply tri; [exact Ba|exact X]|]. lra.
Qed.

(** ** cosine *)
Lemma acos_bd x : Rabs x <= 0.7 -> Rabs (acos x) <= 2.35.
Proof.
  intros H. pose proof (asin_bd x H) as B. apply Rabs_inv_le in H. apply Rabs_inv_le in B. rewrite acos_asin by (split; lra).
  assert (1.57 < PI / 2 < 1.571) by (split; interval). apply Rabs_le. split; lra.
Qed.
Lemma cos_acos32 m : Rabs (rval 16 m) <= 0.7 -> exists a s, fx_acos F32 m = Ok a /\ fx_cos F32 a = Ok s /\
  Rabs (rval 16 s - rval 16 m) <= 8e-4.
Proof.
  intros H. destruct (acos32_acc m H) as (a & Ea & Va & Ba). exists a.
  assert (NA : Rabs (rval 16 a) <= 5.2e-4 + 2.35) by (eapply near; [exact Ba|apply acos_bd; auto]).
  destruct (cos32_thm a Va) as (s & Es & Vs & Bs). exists s. repeat (split; [assumption|]).
  rewrite u16 in Bs. apply Rabs_inv_le in H. rewrite <- (cos_acos (rval 16 m)) by (split; lra).
  eapply Rle_trans; [eapply tri; [exact Bs|eapply Rle_trans; [apply cos_lip|exact Ba]]|]. pose proof (Rabs_pos (rval 16 a)). lra.
Qed.
Lemma cos_acos64 m : Rabs (rval 32 m) <= 0.7 -> exists a s, fx_acos F64 m = Ok a /\ fx_cos F64 a = Ok s /\
  Rabs (rval 32 s - rval 32 m) <= 6.81e-4.
Proof.
  intros H. destruct (acos64_acc m H) as (a & Ea & Va & Ba). exists a.
  assert (NA : Rabs (rval 32 a) <= 3.6e-4 + 2.35) by (eapply near; [exact Ba|apply acos_bd; auto]).
  destruct (cos64_thm a Va) as (s & Es & Vs & Bs). exists s. repeat (split; [assumption|]).
  rewrite u32 in Bs. apply Rabs_inv_le in H. rewrite <- (cos_acos (rval 32 m)) by (split; lra).
  eapply Rle_trans; [eapply tri; [exact Bs|eapply Rle_trans; [apply cos_lip|exact Ba]]|]. pose proof (Rabs_pos (rval 32 a)). lra.
Qed.
(** x between 0.81 and 2.33 *)
Lemma cos_small x : 0.81 <= x <= 2.33 -> Rabs (cos x) <= 0.6897.
Proof.
  intros H. assert (C : cos x = sin (PI / 2 - x)) by (rewrite sin_shift; reflexivity). rewrite C. apply Rle_trans with 0.6897; [|lra].
  assert (Rabs (PI / 2 - x) <= 0.761). { assert (1.57 < PI / 2 < 1.571) by (split; interval). apply Rabs_le. split; lra. }
  set (t := PI / 2 - x) in *. apply Rabs_inv_le in H0. apply Rabs_le. split; interval with (i_bisect t).
Qed.
Lemma acos_cos_real x s d : 0.81 <= x <= 2.33 -> Rabs (s - cos x) <= d -> Rabs s <= 0.7 -> Rabs (acos s - x) <= 1.41 * d.
Proof.
  intros H B NS. assert (P : 1.57 < PI / 2 < 1.571) by (split; interval).
  pose proof (asin_bd s NS) as AB. apply Rabs_inv_le in NS. rewrite acos_asin by (split; lra).
  assert (X : Rabs (asin s - (PI / 2 - x)) <= 1.41 * Rabs (sin (asin s) - sin (PI / 2 - x))).
  { apply sin_exp; [lra|]. apply Rabs_le. split; lra. }
  rewrite sin_asin, sin_shift in X by (split; lra). replace (PI / 2 - asin s - x) with (- (asin s - (PI / 2 - x))) by ring. rewrite Rabs_Ropp. lra.
Qed.
Lemma acos_cos32 m : 0.81 <= rval 16 m <= 2.33 -> exists s a, fx_cos F32 m = Ok s /\ fx_acos F32 s = Ok a /\
  Rabs (rval 16 a - rval 16 m) <= 9.2e-4.
Proof.
  intros H. assert (HA : Rabs (rval 16 m) <= 2.33) by (apply Rabs_le; split; lra).
  destruct (cos32_thm m (val32 m ltac:(lra))) as (s & Es & Vs & Bs). exists s.
  assert (Bs' : Rabs (rval 16 s - cos (rval 16 m)) <= 2.8e-4) by (rewrite u16 in Bs; pose proof (Rabs_pos (rval 16 m)); lra).
  assert (NS : Rabs (rval 16 s) <= 2.8e-4 + 0.6897) by (eapply near; [exact Bs'|apply cos_small; auto]).
  destruct (acos32_acc s ltac:(lra)) as (a & Ea & Va & Ba). exists a. repeat (split; [assumption|]).
  pose proof (acos_cos_real _ _ _ H Bs' ltac:(lra)) as X. eapply Rle_trans; [eapply tri; [exact Ba|exact X]|]. lra.
Qed.
Lemma acos_cos64 m : 0.81 <= rval 32 m <= 2.33 -> exists s a, fx_cos F64 m = Ok s /\ fx_acos F64 s = Ok a /\
  Rabs (rval 32 a - rval 32 m) <= 8.2e-4.
Proof.
  intros H. assert (HA : Rabs (rval 32 m) <= 2.33) by (apply Rabs_le; split; lra).
  destruct (cos64_thm m (val64 m ltac:(lra))) as (s & Es & Vs & Bs). exists s.
  assert (Bs' : Rabs (rval 32 s - cos (rval 32 m)) <= 3.201e-4) by (rewrite u32 in Bs; pose proof (Rabs_pos (rval 32 m)); lra).
  assert (NS : Rabs (rval 32 s) <= 3.201e-4 + 0.6897) by (eapply near; [exact Bs'|apply cos_small; auto]).
  destruct (acos64_acc s ltac:(lra)) as (a & Ea & Va & Ba). exists a. repeat (split; [assumption|]).
  pose proof (acos_cos_real _ _ _ H Bs' ltac:(lra)) as X. eapply Rle_trans; [eapply tri; [exact Ba|exact X]|]. lra.
Qed.

(** ** tangent *)
Lemma atan_bd x : Rabs x <= 1 -> Rabs (atan x) <= 0.7854.
Proof. intros H. apply Rabs_inv_le in H. apply Rabs_le. split; interval. Qed.
Lemma cos_lo x : Rabs x <= 0.786 -> 0.7066 <= cos x.
Proof. intros H. apply Rabs_inv_le in H. interval. Qed.
(** fixed32: the error of tan for |x| <= 0.786 *)
Lemma tan32_small m : Rabs (rval 16 m) <= 0.786 -> exists r, fx_tan F32 m = Ok r /\ Rabs (rval 16 r - tan (rval 16 m)) <= 9.4e-4.
Proof.
  intros H. pose proof (cos_lo _ H) as C. pose proof (Rabs_pos (rval 16 m)) as P0.
  destruct (tan32_acc m (val32 m ltac:(lra)) (not_min32 m ltac:(lra))) as (r & Er & Vr & Br).
  { rewrite u16, (Rabs_pos_eq (cos _)) by lra. lra. }
  exists r. split; [exact Er|]. eapply Rle_trans; [exact Br|]. rewrite u16.
  set (ax := Rabs (rval 16 m)) in *. set (cc := cos (rval 16 m)) in *.
  assert (D : 0.49928 <= cc * cc) by nra.
  assert ((30 + 0.23 * ax) / (cc * cc) <= 60.46); [|lra].
  apply Rmult_le_reg_r with (cc * cc); [lra|]. unfold Rdiv. rewrite Rmult_assoc, Rinv_l by lra. lra.
Qed.
Lemma tan_atan32 m : Rabs (rval 16 m) <= 1 -> exists a t, fx_atan F32 m = Ok a /\ fx_tan F32 a = Ok t /\
  Rabs (rval 16 t - rval 16 m) <= 1.75e-3.
Proof.
  intros H. destruct (atan32_thm m H) as (a & Ea & Va & Ba). exists a.
  pose proof (atan_bd _ H) as AB.
  assert (NA : Rabs (rval 16 a) <= 4e-4 + 0.7854) by (eapply near; [exact Ba|auto]).
  destruct (tan32_small a ltac:(lra)) as (t & Et & Bt). exists t. repeat (split; [assumption|]).
  rewrite <- (tan_atan (rval 16 m)). pose proof (tan_lip (rval 16 a) (atan (rval 16 m)) ltac:(lra) ltac:(lra)) as L.
  eapply Rle_trans; [eapply tri; [exact Bt|exact L]|]. lra.
Qed.
Lemma tan_small x : Rabs x <= 0.78 -> Rabs (tan x) <= 0.9893.
Proof. intros H. apply Rabs_inv_le in H. apply Rabs_le. split; interval. Qed.
Lemma atan_tan32 m : Rabs (rval 16 m) <= 0.78 -> exists t a, fx_tan F32 m = Ok t /\ fx_atan F32 t = Ok a /\
  Rabs (rval 16 a - rval 16 m) <= 1.34e-3.
Proof.
  intros H. destruct (tan32_small m ltac:(lra)) as (t & Et & Bt). exists t.
  assert (NT : Rabs (rval 16 t) <= 9.4e-4 + 0.9893) by (eapply near; [exact Bt|apply tan_small; auto]).
  destruct (atan32_thm t ltac:(lra)) as (a & Ea & Va & Ba). exists a. repeat (split; [assumption|]).
  pose proof (atan_lip (rval 16 t) (tan (rval 16 m))) as L. apply Rabs_inv_le in H.
  rewrite (atan_tan (rval 16 m)) in L by (assert (1.57 < PI / 2) by interval; split; lra).
  eapply Rle_trans; [eapply tri; [exact Ba|exact L]|]. lra.
Qed.
(** fixed64: tan of a tiny negative number has the wrong sign (C46), so arguments in (-1.5e-4, 0) are left out *)
Lemma tan64_small m : Rabs (rval 32 m) <= 0.786 -> (0 <= m \/ 644245 <= Z.abs m)%Z ->
  exists r, fx_tan F64 m = Ok r /\ Rabs (rval 32 r - tan (rval 32 m)) <= 1.23e-5.
Proof.
  intros H T. pose proof (cos_lo _ H) as C. pose proof (Rabs_pos (rval 32 m)) as P0.
  destruct (tan64_acc m (val64 m ltac:(lra)) (not_min64 m ltac:(lra)) T) as (r & Er & Vr & Br).
  { rewrite u32, (Rabs_pos_eq (cos _)) by lra. lra. }
  exists r. split; [exact Er|]. eapply Rle_trans; [exact Br|]. rewrite u32.
  set (ax := Rabs (rval 32 m)) in *. set (cc := cos (rval 32 m)) in *.
  assert (D : 0.49928 <= cc * cc) by nra.
  apply Rmult_le_reg_r with (cc * cc); [lra|]. unfold Rdiv. rewrite Rmult_assoc, Rinv_l by lra. lra.
Qed.
Lemma atan_lo x : 4.3e-4 <= x <= 1 -> 4.29e-4 <= atan x.
Proof.
  intros H. destruct (Req_dec x 4.3e-4) as [-> |N]; [interval|].
  apply Rle_trans with (atan 4.3e-4); [interval|]. left. apply atan_increasing. lra.
Qed.
Lemma tan_atan64 m : 4.3e-4 <= Rabs (rval 32 m) <= 1 -> exists a t, fx_atan F64 m = Ok a /\ fx_tan F64 a = Ok t /\
  Rabs (rval 32 t - rval 32 m) <= 5.6e-4.
Proof.
  intros [L H]. destruct (atan64_thm m H) as (a & Ea & Va & Ba). exists a.
  pose proof (atan_bd _ H) as AB.
  assert (NA : Rabs (rval 32 a) <= 2.71e-4 + 0.7854) by (eapply near; [exact Ba|auto]).
  assert (AL : 4.29e-4 <= Rabs (atan (rval 32 m))).
  { destruct (Rle_lt_dec 0 (rval 32 m)) as [P|P].
    - rewrite Rabs_pos_eq in L, H by auto. pose proof (atan_lo _ (conj L H)). rewrite Rabs_pos_eq; lra.
    - rewrite Rabs_left in L, H by auto. pose proof (atan_lo _ (conj L H)). rewrite atan_opp in H0. rewrite Rabs_left; lra. }
  assert (T : (644245 <= Z.abs a)%Z).
  { apply le_IZR. rewrite abs_IZR.
    assert (1.58e-4 <= Rabs (rval 32 a)).
    { pose proof (Rabs_triang_inv (atan (rval 32 m)) (rval 32 a)) as X. rewrite Rabs_minus_sym in X. lra. }
    unfold rval in H0. change (IZR (2 ^ 32)) with 4294967296 in H0. unfold Rdiv in H0. rewrite Rabs_mult, (Rabs_pos_eq (/ _)) in H0 by lra. lra. }
  destruct (tan64_small a ltac:(lra) (or_intror T)) as (t & Et & Bt). exists t. repeat (split; [assumption|]).
  rewrite <- (tan_atan (rval 32 m)). pose proof (tan_lip (rval 32 a) (atan (rval 32 m)) ltac:(lra) ltac:(lra)) as TL.
  eapply Rle_trans; [eapply tri; [exact Bt|exact TL]|]. lra.
Qed.
Lemma atan_tan64 m : Rabs (rval 32 m) <= 0.78 -> (0 <= m \/ 644245 <= Z.abs m)%Z -> exists t a, fx_tan F64 m = Ok t /\ fx_atan F64 t = Ok a /\
  Rabs (rval 32 a - rval 32 m) <= 2.84e-4.
Proof.
  intros H T. destruct (tan64_small m ltac:(lra) T) as (t & Et & Bt). exists t.
  assert (NT : Rabs (rval 32 t) <= 1.23e-5 + 0.9893) by (eapply near; [exact Bt|apply tan_small; auto]).
  destruct (atan64_thm t ltac:(lra)) as (a & Ea & Va & Ba). exists a. repeat (split; [assumption|]).
  pose proof (atan_lip (rval 32 t) (tan (rval 32 m))) as L. apply Rabs_inv_le in H.
  rewrite (atan_tan (rval 32 m)) in L by (assert (1.57 < PI / 2) by interval; split; lra).
  eapply Rle_trans; [eapply tri; [exact Ba|exact L]|]. lra.
Qed.
