(** Accuracy of log2, log and log10 for the two predefined types. *)
From Coq Require Import ZArith Reals Lia Lra Psatz Bool.
From Interval Require Import Tactic.
From Verif Require Import Base Fixed Math Spec SpecReal BaseLemmas FixedLemmas MathProofs PowProofs RealLemmas StdProofs LogProofs.
Open Scope R_scope.

Section LOGS.
Variable c : cfg.
Hypothesis HS : std c.
Let M := (2 ^ cf c)%Z.
Let RM := IZR M.

Lemma RMp : 65536 <= RM.
Proof. unfold RM. apply IZR_le. pose proof (std_M c HS). unfold M. lia. Qed.
Lemma inv_ln2 : 2 / ln 2 < 2.9.
Proof. interval with (i_prec 60). Qed.

Lemma log2_acc m : valid c m = true -> (0 < m)%Z ->
  exists r, fx_log2 c m = Ok r /\ valid c r = true /\
    rval (cf c) r <= log2r (rval (cf c) m) < rval (cf c) r + 4 * ulp (cf c).
Proof.
  intros V P. destruct (log2_main c HS m V P) as (r & E & R1 & B). exists r. split; [exact E|].
  pose proof RMp as HR. pose proof inv_ln2 as H2. fold M in B. fold RM in B.
  assert (HM : (65536 <= M <= 4294967296)%Z) by (apply std_M; auto). pose proof (std_f c HS).
  split.
  - apply std_valid; auto. fold M in R1 |- *.
    assert (64 * cf c <= M)%Z by (unfold M; destruct HS as [-> | ->]; vm_compute; congruence). nia.
  - unfold rval, ulp. fold M. fold RM. set (l := log2r _) in *.
    assert (0 < / RM) by (apply Rinv_0_lt_compat; lra).
    assert (E1 : l = RM * l * / RM) by (field; lra). rewrite E1. clear E1. unfold Rdiv. split.
    + apply Rmult_le_compat_r; lra.
    + replace (IZR r * / RM + 4 * / RM) with ((IZR r + 4) * / RM) by ring. apply Rmult_lt_compat_r; lra.
Qed.

(** division of a logarithm by a constant [K]: [a] is the ideal factor *)
Lemma div_const K (a d : R) m :
  valid c K = true -> (M <= K)%Z -> valid c m = true -> (0 < m)%Z ->
  Rabs (RM / IZR K - a) * (IZR (cf c) * RM) <= d -> 0 < a < 1 ->
  exists l r, fx_log2 c m = Ok l /\ fx_div c l K = Ok r /\ valid c r = true /\
    Rabs (rval (cf c) r - a * log2r (rval (cf c) m)) <= (d + 1 + 4 * a) * ulp (cf c).
Proof.
  intros VK HK V P D A. destruct (log2_main c HS m V P) as (l & E & R1 & B). fold M in B, R1. fold RM in B.
  pose proof RMp as HR. pose proof inv_ln2 as H2.
  assert (HM : (65536 <= M <= 4294967296)%Z) by (apply std_M; auto). pose proof (std_f c HS) as HF.
  assert (HC : (64 * cf c <= M)%Z) by (unfold M; destruct HS as [-> | ->]; vm_compute; congruence).
  assert (KR : RM <= IZR K) by (apply IZR_le; auto).
  pose proof (quot_real (l * M) K ltac:(lia)) as Q. rewrite mult_IZR in Q. fold RM in Q.
  assert (AB : (Z.abs (Z.quot (l * M) K) <= Z.abs l)%Z).
  { rewrite <- Z.quot_abs by lia. rewrite (Z.abs_eq K) by lia.
    rewrite Z.abs_mul, (Z.abs_eq M) by lia. apply Z.quot_le_upper_bound; nia. }
  assert (VR : valid c (Z.quot (l * M) K) = true).
  { apply std_valid; auto. fold M. nia. }
  assert (VL : valid c l = true) by (apply std_valid; auto; fold M; nia).
  exists l, (Z.quot (l * M) K). split; [exact E|]. split; [apply s_div; auto; lia|]. split; [exact VR|].
  set (r := Z.quot (l * M) K) in *. unfold rval at 1, ulp. fold M. fold RM.
  set (g := log2r _) in *.
  assert (HI : 0 < / RM) by (apply Rinv_0_lt_compat; lra).
  assert (LA : Rabs (IZR l) <= IZR (cf c) * RM).
  { unfold RM. rewrite <- mult_IZR, <- abs_IZR. apply IZR_le. lia. }
  assert (T1 : Rabs (IZR l * RM / IZR K - a * IZR l) <= d).
  { replace (IZR l * RM / IZR K - a * IZR l) with (IZR l * (RM / IZR K - a)) by (field; lra).
    rewrite Rabs_mult. eapply Rle_trans; [|exact D]. rewrite Rmult_comm. apply Rmult_le_compat_l; [apply Rabs_pos|auto]. }
  assert (T2 : Rabs (a * IZR l - a * (RM * g)) <= 4 * a).
  { replace (a * IZR l - a * (RM * g)) with (- (a * (RM * g - IZR l))) by ring. rewrite Rabs_Ropp.
    rewrite Rabs_pos_eq by nra. nra. }
  replace (IZR r / RM - a * g) with ((IZR r - a * (RM * g)) * / RM) by (field; lra).
  rewrite Rabs_mult, (Rabs_pos_eq (/ RM)) by lra. apply Rmult_le_compat_r; [lra|].
  apply Rabs_def2 in Q. revert T1 T2. clear - Q. intros.
  assert (- d <= IZR l * RM / IZR K - a * IZR l <= d) by (apply Rabs_inv_le; auto).
  assert (- (4 * a) <= a * IZR l - a * (RM * g) <= 4 * a) by (apply Rabs_inv_le; auto).
  apply Rabs_le. lra.
Qed.
End LOGS.

(** the constants *)
Lemma k_e32 : log_log2_e F32 = Ok 94548%Z. Proof. reflexivity. Qed.
Lemma k_e64 : log_log2_e F64 = Ok 6196328018%Z. Proof. reflexivity. Qed.
Lemma k_10_32 : log10_log2_10 F32 = Ok 217705%Z. Proof. reflexivity. Qed.
Lemma k_10_64 : log10_log2_10 F64 = Ok 14267572527%Z. Proof. reflexivity. Qed.

Lemma ln_of_log2 x : ln x = ln 2 * log2r x.
Proof. unfold log2r. field. pose proof ln2_pos; lra. Qed.
Lemma log10_of_log2 x : log10r x = ln 2 / ln 10 * log2r x.
Proof. unfold log2r, log10r. assert (0 < ln 10) by (rewrite <- ln_1; apply ln_increasing; lra). field. pose proof ln2_pos; lra. Qed.

Lemma log_acc32 m : valid F32 m = true -> (0 < m)%Z ->
  exists r, fx_log F32 m = Ok r /\ valid F32 r = true /\ Rabs (rval 16 r - ln (rval 16 m)) <= 8 * ulp 16.
Proof.
  intros V P. destruct (div_const F32 (or_introl eq_refl) 94548 (ln 2) 3.7 m) as (l & r & E1 & E2 & V2 & B); auto.
  - vm_compute; congruence.
  - change (2 ^ cf F32)%Z with 65536%Z. change (cf F32) with 16%Z. interval with (i_prec 60).
  - split; interval with (i_prec 60).
  - exists r. split; [|split; auto].
    + unfold fx_log. rewrite k_e32, E1. exact E2.
    + rewrite ln_of_log2. eapply Rle_trans; [exact B|]. apply Rmult_le_compat_r.
      * unfold ulp. left. apply Rinv_0_lt_compat, IZR_lt. reflexivity.
      * interval with (i_prec 60).
Qed.
Lemma log_acc64 m : valid F64 m = true -> (0 < m)%Z ->
  exists r, fx_log F64 m = Ok r /\ valid F64 r = true /\ Rabs (rval 32 r - ln (rval 32 m)) <= 15 * ulp 32.
Proof.
  intros V P. destruct (div_const F64 (or_intror eq_refl) 6196328018 (ln 2) 11.1 m) as (l & r & E1 & E2 & V2 & B); auto.
  - vm_compute; congruence.
  - change (2 ^ cf F64)%Z with 4294967296%Z. change (cf F64) with 32%Z. interval with (i_prec 100).
  - split; interval with (i_prec 60).
  - exists r. split; [|split; auto].
    + unfold fx_log. rewrite k_e64, E1. exact E2.
    + rewrite ln_of_log2. eapply Rle_trans; [exact B|]. apply Rmult_le_compat_r.
      * unfold ulp. left. apply Rinv_0_lt_compat, IZR_lt. reflexivity.
      * interval with (i_prec 60).
Qed.
Lemma log10_acc32 m : valid F32 m = true -> (0 < m)%Z ->
  exists r, fx_log10 F32 m = Ok r /\ valid F32 r = true /\ Rabs (rval 16 r - log10r (rval 16 m)) <= 4 * ulp 16.
Proof.
  intros V P. destruct (div_const F32 (or_introl eq_refl) 217705 (ln 2 / ln 10) 1.3 m) as (l & r & E1 & E2 & V2 & B); auto.
  - vm_compute; congruence.
  - change (2 ^ cf F32)%Z with 65536%Z. change (cf F32) with 16%Z. interval with (i_prec 60).
  - split; interval with (i_prec 60).
  - exists r. split; [|split; auto].
    + unfold fx_log10. rewrite k_10_32, E1. exact E2.
    + rewrite log10_of_log2. eapply Rle_trans; [exact B|]. apply Rmult_le_compat_r.
      * unfold ulp. left. apply Rinv_0_lt_compat, IZR_lt. reflexivity.
      * interval with (i_prec 60).
Qed.
Lemma log10_acc64 m : valid F64 m = true -> (0 < m)%Z ->
  exists r, fx_log10 F64 m = Ok r /\ valid F64 r = true /\ Rabs (rval 32 r - log10r (rval 32 m)) <= 4 * ulp 32.
Proof.
  intros V P. destruct (div_const F64 (or_intror eq_refl) 14267572527 (ln 2 / ln 10) 0.7 m) as (l & r & E1 & E2 & V2 & B); auto.
  - vm_compute; congruence.
  - change (2 ^ cf F64)%Z with 4294967296%Z. change (cf F64) with 32%Z. interval with (i_prec 100).
  - split; interval with (i_prec 60).
  - exists r. split; [|split; auto].
    + unfold fx_log10. rewrite k_10_64, E1. exact E2.
    + rewrite log10_of_log2. eapply Rle_trans; [exact B|]. apply Rmult_le_compat_r.
      * unfold ulp. left. apply Rinv_0_lt_compat, IZR_lt. reflexivity.
      * interval with (i_prec 60).
Qed.
(** the domain error is passed on *)
Lemma log_domain c m : std c -> valid c m = true -> (m <= 0)%Z -> fx_log c m = Throw domain_error /\ fx_log10 c m = Throw domain_error.
Proof.
  intros S V H. pose proof (proj2 (log2_domain c S m V) H) as E.
  unfold fx_log, fx_log10. rewrite E. destruct S as [-> | ->]; split; reflexivity.
Qed.
