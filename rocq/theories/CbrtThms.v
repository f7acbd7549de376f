(** C37 and C114 in terms of rational values. *)
From Coq Require Import ZArith QArith Bool List Lia ZifyBool.
From Verif Require Import Base Fixed Math Spec StdProofs CbrtProofs RefuteMath.
Open Scope Z_scope.

Lemma qv16 m : (qval 16 m == m # 65536)%Q. Proof. reflexivity. Qed.
Lemma qv32 m : (qval 32 m == m # 4294967296)%Q. Proof. reflexivity. Qed.

Lemma cbrt32_q m : (0 <= qval 16 m)%Q -> (qval 16 m < 94)%Q ->
  exists r, fx_cbrt F32 m = Ok r /\ valid F32 r = true /\ (0 <= qval 16 r)%Q /\
    ((qval 16 (m - 15) < qval 16 r * qval 16 r * qval 16 r /\ qval 16 r * qval 16 r * qval 16 r < qval 16 (m + 15))%Q \/
     (qval 16 (r - 1) * qval 16 (r - 1) * qval 16 (r - 1) <= qval 16 m /\ qval 16 m <= qval 16 (r + 1) * qval 16 (r + 1) * qval 16 (r + 1))%Q).
Proof.
  unfold Qle, Qlt. cbn -[Z.mul]. intros H1 H2. change (Z.pos (pow2p 16)) with 65536 in *.
  destruct (cbrt32_thm m ltac:(lia)) as (r & R1 & R2 & R3). exists r. split; [exact R1|].
  split. { apply std_valid; [left; reflexivity|]. change (2 ^ cf F32) with 65536. lia. }
  split; [lia|]. unfold near_cbrt in R3. destruct R3 as [R3|R3]; [left|right]; cbn -[Z.mul Z.sub Z.add]; change (pow2p 16 * pow2p 16 * pow2p 16)%positive with (65536 * 65536 * 65536)%positive;
    rewrite ?Pos2Z.inj_mul; change (Z.pos (pow2p 16)) with 65536; lia.
Qed.
Lemma cbrt64_q m : (0 <= qval 32 m)%Q -> (qval 32 m <= 3868)%Q ->
  exists r, fx_cbrt F64 m = Ok r /\ valid F64 r = true /\ (0 <= qval 32 r)%Q /\
    (qval 32 (m - 655360) < qval 32 r * qval 32 r * qval 32 r /\ qval 32 r * qval 32 r * qval 32 r < qval 32 (m + 655376))%Q.
Proof.
  unfold Qle, Qlt. cbn -[Z.mul]. intros H1 H2. change (Z.pos (pow2p 32)) with 4294967296 in *.
  destruct (cbrt64_thm m ltac:(lia)) as (r & R1 & R2 & R3). exists r. split; [exact R1|].
  split. { apply std_valid; [right; reflexivity|]. change (2 ^ cf F64) with 4294967296. lia. }
  split; [lia|]. cbn -[Z.mul Z.sub Z.add]. change (pow2p 32 * pow2p 32 * pow2p 32)%positive with (4294967296 * 4294967296 * 4294967296)%positive.
  rewrite ?Pos2Z.inj_mul; change (Z.pos (pow2p 32)) with 4294967296; lia.
Qed.
Lemma cbrt64_refuted : exists m, valid F64 m = true /\ (qval 32 m == inject_Z (-2))%Q /\ fx_cbrt F64 m = UB.
Proof. exists (-8589934592). vm_compute. repeat split. Qed.
