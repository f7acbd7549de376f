(** C88-C90 and the angle reduction over the reals. *)
From Coq Require Import ZArith Reals Lra Lia.
From Interval Require Import Tactic.
From Verif Require Import Base Fixed SpecReal RealLemmas Ext SpecExt ExtProofs.
Open Scope R_scope.

Lemma tp_bound : 0 <= 2 * PI * 4294967296 - IZR TP <= 1.1.
Proof. unfold TP. interval with (i_prec 80). Qed.

Lemma avx_real x : valid F64 x = true -> reduced x (unlane (avx_reduce false TP IV (lane x))).
Proof.
  intros V. change (valid F64 x) with (in_range int64 x) in V. destruct (avx_reduce_eq x V) as (n & -> & N).
  destruct (avx_bounds x n V N) as [BP BN]. pose proof tp_bound as T. unfold reduced, rval, ulp.
  replace (IZR (2 ^ 32)) with 4294967296 by (cbv; lra). rewrite minus_IZR, mult_IZR.
  split; [|split; [|split]].
  - exists n. replace ((IZR x - IZR n * IZR TP) / 4294967296 - (IZR x / 4294967296 - 2 * PI * IZR n))
      with (IZR n * ((2 * PI * 4294967296 - IZR TP) / 4294967296)) by field.
    rewrite Rabs_mult. rewrite Rmult_comm. apply Rmult_le_compat_r; [apply Rabs_pos|].
    rewrite Rabs_right by lra. lra.
  - intros X. destruct (BP X) as (_ & B & _). apply IZR_le in B. rewrite minus_IZR, mult_IZR in B. lra.
  - intros X. destruct (BN X) as (_ & B & _). apply IZR_le in B. rewrite minus_IZR, mult_IZR in B. lra.
  - destruct (Z_le_gt_dec 0 x) as [X|X].
    + destruct (BP X) as (_ & B1 & B2). apply IZR_le in B1, X. apply IZR_lt in B2. rewrite minus_IZR, mult_IZR in B1.
      rewrite !mult_IZR, minus_IZR, plus_IZR, mult_IZR in B2. replace (IZR (2 ^ 64)) with (4294967296 * 4294967296) in B2 by (cbv; lra).
      rewrite !Rabs_right by lra. set (r := IZR x - IZR n * IZR TP) in *.
      assert (r < IZR TP * (1 + IZR x / (4294967296 * 4294967296))) by lra.
      assert (IZR TP * (1 + IZR x / (4294967296 * 4294967296)) <= 2 * PI * 4294967296 * (1 + IZR x / (4294967296 * 4294967296)))
        by (apply Rmult_le_compat_r; lra).
      lra.
    + destruct (BN ltac:(lia)) as (_ & B1 & B2). apply IZR_le in B1. assert (X2 : IZR x <= 0) by (apply IZR_le; lia). apply IZR_lt in B2. rewrite minus_IZR, mult_IZR in B1.
      rewrite !mult_IZR, minus_IZR, plus_IZR, mult_IZR, opp_IZR in B2. replace (IZR (2 ^ 64)) with (4294967296 * 4294967296) in B2 by (cbv; lra).
      rewrite (Rabs_left1 (IZR x / _)) by lra. rewrite Rabs_left1 by lra. set (r := IZR x - IZR n * IZR TP) in *.
      assert (- r < IZR TP * (1 + - IZR x / (4294967296 * 4294967296))) by lra.
      assert (IZR TP * (1 + - IZR x / (4294967296 * 4294967296)) <= 2 * PI * 4294967296 * (1 + - IZR x / (4294967296 * 4294967296)))
        by (apply Rmult_le_compat_r; lra).
      lra.
Qed.
Lemma C89_lemma x0 x1 x2 x3 : valid F64 x0 = true -> valid F64 x1 = true -> valid F64 x2 = true -> valid F64 x3 = true ->
  exists r0 r1 r2 r3, simd_reduce_angle false (x0, x1, x2, x3) = Ok (r0, r1, r2, r3) /\
    reduced x0 r0 /\ reduced x1 r1 /\ reduced x2 r2 /\ reduced x3 r3.
Proof.
  intros V0 V1 V2 V3. unfold simd_reduce_angle. rewrite (proj1 consts), (proj2 consts). cbn [bind].
  do 4 eexists. split; [reflexivity|]. split; [|split; [|split]]; apply avx_real; auto.
Qed.
Lemma range_refuted : exists x r, valid F64 x = true /\ simd_reduce_angle false (x, x, x, x)%Z = Ok (r, r, r, r) /\ 2 * PI + 0.37 < rval 32 r.
Proof.
  exists 4611686022722355200%Z. eexists. split; [reflexivity|]. split; [vm_compute; reflexivity|]. unfold rval.
  replace (IZR (2 ^ 32)) with 4294967296 by (cbv; lra). interval with (i_prec 60).
Qed.
Lemma avx512_refuted : exists x r, valid F64 x = true /\ simd_reduce_angle true (x, x, x, x)%Z = Ok (r, r, r, r) /\ rval 32 x = 7 /\ rval 32 r = 7.
Proof.
  exists (7 * 2 ^ 32)%Z, (7 * 2 ^ 32)%Z. split; [reflexivity|]. split; [vm_compute; reflexivity|]. unfold rval. split; cbv; lra.
Qed.
