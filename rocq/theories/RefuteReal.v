(** Counterexamples for the elementary functions. *)
From Coq Require Import ZArith Bool List Lia QArith Qabs Reals Lra.
From Interval Require Import Tactic.
From Verif Require Import Base Fixed Math Spec SpecReal BaseLemmas.
Open Scope R_scope.

Lemma sin_min64_refuted : exists m, valid F64 m = true /\ fx_sin F64 m = UB.
Proof. exists (-9223372036854775808)%Z. vm_compute. repeat split. Qed.

(** sin(-5 ulp) = +5 ulp *)
Lemma sin_odd_refuted : exists m, valid F32 m = true /\ m <> 0%Z /\ fx_sin F32 m = Ok m /\ fx_sin F32 (- m) = Ok m.
Proof. exists 5%Z. vm_compute. repeat split. discriminate. Qed.
(** in fixed64 the wrong sign reaches 9.3e-5 *)
Lemma sin_odd64_refuted : exists m, valid F64 m = true /\ 9.3e-5 < rval 32 m /\ fx_sin F64 m = Ok m /\ fx_sin F64 (- m) = Ok m.
Proof.
  exists 400000%Z. split; [vm_compute; reflexivity|]. split.
  - unfold rval. change (IZR (2 ^ 32)) with 4294967296. lra.
  - split; vm_compute; reflexivity.
Qed.

(** sin = -1.0000153, cos = 2^-15: the quotient -32768.5 wraps to +32767.5 *)
Lemma tan_wrap_refuted : exists m s cs r, valid F32 m = true /\ fx_sin F32 m = Ok s /\ fx_cos F32 m = Ok cs /\ (1 < Z.abs cs)%Z /\
  (qval 16 s / qval 16 cs < 0)%Q /\ fx_tan F32 m = Ok r /\ (0 < qval 16 r)%Q.
Proof. exists (-102941)%Z, (-65537)%Z, 2%Z, 2147450880%Z. vm_compute. repeat split. Qed.
Lemma tan_min_refuted : exists m, valid F32 m = true /\ fx_tan F32 m = UB.
Proof. exists (-2147483648)%Z. vm_compute. repeat split. Qed.

(** atan is already off by more than 0.001 just above 1 *)
Lemma atan_acc_refuted : exists m r, valid F32 m = true /\ rval 16 m <= 1.05 /\ fx_atan F32 m = Ok r /\ 0.001 < Rabs (rval 16 r - atan (rval 16 m)).
Proof.
  exists 68276%Z, 52748%Z. split; [vm_compute; reflexivity|].
  split; [unfold rval; change (IZR (2 ^ 16)) with 65536; lra|]. split; [vm_compute; reflexivity|].
  unfold rval. change (IZR (2 ^ 16)) with 65536. interval with (i_prec 60).
Qed.

(** asin(0.7214...) is off by more than 0.001; asin(1 - 2^-16) = -32192 *)
Lemma asin_acc_refuted : exists m r, valid F32 m = true /\ 0 < rval 16 m <= 0.7215 /\ fx_asin F32 m = Ok r /\
  0.001 < Rabs (rval 16 r - asin (rval 16 m)).
Proof.
  exists 47280%Z, 52748%Z. split; [vm_compute; reflexivity|].
  split; [unfold rval; change (IZR (2 ^ 16)) with 65536; lra|]. split; [vm_compute; reflexivity|].
  rewrite asin_atan by (unfold rval; change (IZR (2 ^ 16)) with 65536; lra).
  unfold rval, Rsqr. change (IZR (2 ^ 16)) with 65536. interval with (i_prec 60).
Qed.
Lemma asin_wild_refuted : exists m r, valid F32 m = true /\ 0 < rval 16 m < 1 /\ fx_asin F32 m = Ok r /\ rval 16 r < -32192.
Proof.
  exists 65535%Z, (-2109767932)%Z. split; [vm_compute; reflexivity|].
  split; [unfold rval; change (IZR (2 ^ 16)) with 65536; lra|]. split; [vm_compute; reflexivity|].
  unfold rval. change (IZR (2 ^ 16)) with 65536. lra.
Qed.

(** exp(0.5) = 1.397 *)
Lemma exp_acc_refuted : exists m r, valid F32 m = true /\ rval 16 m = / 2 /\ fx_exp F32 m = Ok r /\ rval 16 r < 1.4 /\ 1.64 < exp (rval 16 m).
Proof.
  destruct (fx_exp F32 32768) as [r| | |] eqn:E; try (vm_compute in E; discriminate E).
  exists 32768%Z, r. split; [vm_compute; reflexivity|].
  assert (R : rval 16 32768 = / 2) by (unfold rval; change (IZR (2 ^ 16)) with 65536; lra). split; auto. split; auto.
  rewrite R. split; [|interval with (i_prec 60)]. vm_compute in E. injection E as <-. unfold rval. change (IZR (2 ^ 16)) with 65536. lra.
Qed.
