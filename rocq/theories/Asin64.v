(** asin and acos of fixed64: no undefined behaviour for |x| <= 0.999. *)
From Coq Require Import ZArith Reals Lra Lia Bool.
From Verif Require Import Base Fixed Math Spec SpecReal BaseLemmas FixedLemmas MathProofs SqrtProofs NewtonProofs StdProofs AtanProofs AsinProofs.
Open Scope Z_scope.
Notation M64 := 4294967296.
Lemma s64 : std F64. Proof. right; reflexivity. Qed.
Lemma v64 k : Z.abs k <= 2000000000 * M64 -> valid F64 k = true.
Proof. intros H. apply (std_valid F64 s64). cbn [cf F64]. change (2 ^ 32) with M64. lia. Qed.
Lemma mb u v A B : 0 <= A -> 0 <= B -> Z.abs u <= A * M64 -> Z.abs v <= B * M64 -> Z.abs (u * v / M64) <= A * B * M64.
Proof.
  intros A0 B0 U V. assert (P : Z.abs (u * v) <= A * B * M64 * M64).
  { rewrite Z.abs_mul. replace (A * B * M64 * M64) with (A * M64 * (B * M64)) by ring. apply Z.mul_le_mono_nonneg; lia. }
  assert (- (A * B * M64) <= u * v / M64) by (apply Z.div_le_lower_bound; lia).
  assert (u * v / M64 <= A * B * M64) by (apply Z.div_le_upper_bound; lia). lia.
Qed.
Lemma m64 u v A B : 0 <= A -> 0 <= B -> A <= 2000000000 -> B <= 2000000000 -> A * B <= 2000000000 ->
  Z.abs u <= A * M64 -> Z.abs v <= B * M64 -> fx_mul F64 u v = Ok (u * v / M64) /\ Z.abs (u * v / M64) <= A * B * M64.
Proof.
  intros A0 B0 LA LB LAB U V. pose proof (mb u v A B A0 B0 U V) as H. split; [|exact H].
  apply (s_mul F64 s64); apply v64; try lia. change (2 ^ cf F64) with M64. lia.
Qed.
Lemma poly64_def x : Z.abs x <= 23 * M64 -> exists r, atan_poly F64 x = Ok r /\ Z.abs r <= 1800000000 * M64.
Proof.
  intros X. unfold atan_poly.
  change (atan_a F64) with (@Ok Z (-199700839)). change (atan_b F64) with (@Ok Z 684249364). change (atan_c F64) with (@Ok Z 1407129056). cbn [bind].
  destruct (m64 x x 23 23) as (E1 & B1); try lia. rewrite E1. cbn [bind]. set (x2 := x * x / M64) in *.
  assert (B1' : Z.abs x2 <= 529 * M64) by lia.
  pose proof (Z.div_le_lower_bound (-199700839 * x2) M64 (- (25 * M64)) ltac:(lia) ltac:(lia)) as L1.
  pose proof (Z.div_le_upper_bound (-199700839 * x2) M64 (25 * M64) ltac:(lia) ltac:(lia)) as L2.
  rewrite (s_mul F64 s64) by (apply v64; change (2 ^ cf F64) with M64; lia). change (2 ^ cf F64) with M64. cbn [bind]. set (r1 := -199700839 * x2 / M64) in *.
  rewrite (s_add F64 s64) by (apply v64; lia). cbn [bind].
  destruct (m64 (r1 + 684249364) x2 26 529) as (E3 & B3); try lia. rewrite E3. cbn [bind]. set (r3 := (r1 + 684249364) * x2 / M64) in *.
  rewrite (s_sub F64 s64) by (apply v64; lia). cbn [bind].
  destruct (m64 (r3 - 1407129056) x2 13755 529) as (E5 & B5); try lia. rewrite E5. cbn [bind]. set (r5 := (r3 - 1407129056) * x2 / M64) in *.
  destruct (m64 r5 x 7276395 23) as (E6 & B6); try lia. rewrite E6. cbn [bind]. set (r6 := r5 * x / M64) in *.
  rewrite (s_add F64 s64) by (apply v64; lia). eexists. split; [reflexivity|]. lia.
Qed.
Lemma atan64_def x : Z.abs x <= 23 * M64 -> exists r, fx_atan F64 x = Ok r /\ Z.abs r <= 1800000000 * M64.
Proof.
  intros X. assert (V : valid F64 x = true) by (apply v64; lia). unfold fx_atan.
  rewrite (s_abs F64 s64) by (apply v64; lia). cbn [bind].
  destruct (poly64_def (Z.abs x) ltac:(lia)) as (r & E & B). rewrite E. cbn [bind].
  destruct (sign_test F64 x s64 V) as (k & EK & BK). rewrite EK. cbn [bind]. rewrite BK.
  destruct (x <? 0); [|exists r; auto]. rewrite (s_neg F64 s64) by (apply v64; lia). exists (- r). split; [reflexivity|lia].
Qed.
Lemma asin64_def m : Z.abs m <= 4290672328 ->
  (exists r, fx_asin F64 m = Ok r /\ valid F64 r = true) /\ (exists r, fx_acos F64 m = Ok r /\ valid F64 r = true).
Proof.
  intros Lm.
  assert (P : 0 <= m * m / M64 <= 4286381656).
  { split; [apply Z.div_pos; nia|]. apply Z.lt_succ_r. apply Z.div_lt_upper_bound; nia. }
  set (d := M64 - m * m / M64) in *.
  assert (Hd : 0 < d < sqrt64_limit) by (unfold d, sqrt64_limit; lia).
  destruct (sqrt64_main d Hd) as (s & E & R & F & _ & _ & _). apply far_sq in F. unfold eps64 in F. change (2 ^ 32) with M64 in *.
  assert (S1 : 188000000 < s <= 2 * M64) by (unfold d in *; nia).
  assert (QB : Z.abs (Z.quot (m * M64) s) <= 23 * M64).
  { rewrite <- Z.quot_abs by lia. rewrite (Z.abs_eq s) by lia. apply Z.quot_le_upper_bound; nia. }
  destruct (atan64_def _ QB) as (r & ER & BR).
  assert (EA : fx_asin F64 m = Ok r).
  { rewrite (asin_in F64 s64) by (try (apply v64); change (2 ^ cf F64) with M64; lia). change (2 ^ cf F64) with M64.
    rewrite (s_mul F64 s64) by (apply v64; change (2 ^ cf F64) with M64; lia). change (2 ^ cf F64) with M64. cbn [bind].
    rewrite (s_sub F64 s64) by (apply v64; lia). cbn [bind]. fold d. rewrite E. cbn [bind].
    rewrite (s_div F64 s64) by (try (apply v64); change (2 ^ cf F64) with M64; lia). change (2 ^ cf F64) with M64. cbn [bind]. exact ER. }
  split; [exists r; split; [exact EA|apply v64; lia]|].
  destruct (Z.eq_dec m 0) as [->|N]; [exists 6746518852; split; [vm_compute; reflexivity|reflexivity]|].
  rewrite (acos_in F64 s64 m r) by (auto; try (apply v64); try (change (2 ^ cf F64) with M64); lia).
  change (pi_v F64) with (@Ok Z 13493037704). cbn [bind]. change (fx_div_int F64 int32 13493037704 2) with (@Ok Z 6746518852). cbn [bind].
  rewrite (s_sub F64 s64) by (apply v64; lia). exists (6746518852 - r). split; [reflexivity|apply v64; lia].
Qed.
Open Scope R_scope.
Lemma asin64_def_thm m : Rabs (rval 32 m) <= 0.999 ->
  (exists r, fx_asin F64 m = Ok r /\ valid F64 r = true) /\ (exists r, fx_acos F64 m = Ok r /\ valid F64 r = true).
Proof.
  intros R. apply asin64_def. apply Z.lt_succ_r. apply lt_IZR. rewrite abs_IZR. change (Z.succ 4290672328) with 4290672329%Z.
  unfold rval in R. change (IZR (2 ^ 32)) with 4294967296 in R. unfold Rdiv in R. rewrite Rabs_mult, (Rabs_pos_eq (/ 4294967296)) in R by lra. lra.
Qed.
Lemma atan64_def_thm m : Rabs (rval 32 m) <= 23 -> exists r, fx_atan F64 m = Ok r /\ valid F64 r = true.
Proof.
  intros R. destruct (atan64_def m) as (r & E & B).
  - apply Z.lt_succ_r. apply lt_IZR. rewrite abs_IZR. rewrite succ_IZR, mult_IZR.
    unfold rval in R. change (IZR (2 ^ 32)) with 4294967296 in R. unfold Rdiv in R. rewrite Rabs_mult, (Rabs_pos_eq (/ 4294967296)) in R by lra. lra.
  - exists r. split; [exact E|]. apply v64. lia.
Qed.
