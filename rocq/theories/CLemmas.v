(** Operator lemmas: non-negative operands, and signed operands. *)
From Coq Require Import ZArith Bool Lia List.
From Verif Require Import Base Fixed BaseLemmas.
Open Scope Z_scope.

Lemma in_range_nn t x : ity_ok t = true -> in_range t x = true -> 0 <= x ->
  0 <= x <= 2 ^ bits t - 1 /\ (sgn t = true -> x <= 2 ^ (bits t - 1) - 1).
Proof.
  intros K R N. destruct (ity_ok_pow t K) as [E P]. apply in_range_iff in R.
  unfold minv, maxv in R. destruct (sgn t); split; intros; try discriminate; zlia.
Qed.

Lemma in_range_nn_i t x : ity_ok t = true -> 0 <= x <= maxv t -> in_range t x = true.
Proof.
  intros K R. destruct (ity_ok_pow t K) as [E P]. apply in_range_iff. split; [|apply R].
  unfold minv. destruct (sgn t); zlia.
Qed.

Lemma maxv_pos t : ity_ok t = true -> 127 <= maxv t.
Proof.
  intros K. apply ity_ok_bits in K. unfold maxv.
  destruct K as [K|[K|[K|[K|K]]]]; rewrite K; destruct (sgn t); vm_compute; congruence.
Qed.

Lemma maxv_uac_l t1 t2 : ity_ok t1 = true -> ity_ok t2 = true -> maxv t1 <= maxv (uac t1 t2).
Proof.
  intros K1 K2. destruct (uac_bits t1 t2 K1 K2) as (B1 & B2 & _).
  pose proof (uac_ok t1 t2 K1 K2) as K.
  destruct (sgn (uac t1 t2)) eqn:S.
  - pose proof (uac_signed t1 t2 K1 K2 S) as [[E|[E L]] _]; unfold maxv; rewrite E, S.
    + apply Z.sub_le_mono_r, Z.pow_le_mono_r; zlia.
    + apply Z.sub_le_mono_r, Z.pow_le_mono_r; zlia.
  - unfold maxv. rewrite S. destruct (ity_ok_pow _ K1) as [E P].
    assert (2 ^ bits t1 <= 2 ^ bits (uac t1 t2)) by (apply Z.pow_le_mono_r; zlia).
    destruct (sgn t1); zlia.
Qed.

Lemma uac_comm_max t1 t2 : maxv (uac t1 t2) = maxv (uac t2 t1) /\ minv (uac t1 t2) = minv (uac t2 t1) /\
  bits (uac t1 t2) = bits (uac t2 t1) /\ sgn (uac t1 t2) = sgn (uac t2 t1).
Proof.
  unfold uac. destruct (promote t1) as [b1 s1], (promote t2) as [b2 s2]. cbn [bits sgn].
  destruct s1, s2; cbn [Bool.eqb].
  - destruct (Z.ltb_spec b1 b2), (Z.ltb_spec b2 b1); try lia; try (repeat split; fail).
    replace b1 with b2 by lia. repeat split.
  - destruct (Z.leb_spec b1 b2); repeat split.
  - destruct (Z.leb_spec b2 b1); repeat split.
  - destruct (Z.ltb_spec b1 b2), (Z.ltb_spec b2 b1); try lia; try (repeat split; fail).
    replace b1 with b2 by lia. repeat split.
Qed.

Lemma maxv_uac_r t1 t2 : ity_ok t1 = true -> ity_ok t2 = true -> maxv t2 <= maxv (uac t1 t2).
Proof.
  intros K1 K2. destruct (uac_comm_max t1 t2) as (-> & _). apply maxv_uac_l; auto.
Qed.

Lemma nn_range_l t1 t2 x : ity_ok t1 = true -> ity_ok t2 = true -> 0 <= x <= maxv t1 ->
  in_range (uac t1 t2) x = true.
Proof.
  intros K1 K2 R. pose proof (maxv_uac_l t1 t2 K1 K2).
  apply in_range_nn_i; [apply uac_ok; auto | zlia].
Qed.
Lemma nn_range_r t1 t2 x : ity_ok t1 = true -> ity_ok t2 = true -> 0 <= x <= maxv t2 ->
  in_range (uac t1 t2) x = true.
Proof.
  intros K1 K2 R. pose proof (maxv_uac_r t1 t2 K1 K2).
  apply in_range_nn_i; [apply uac_ok; auto | zlia].
Qed.
Lemma nn_wrap_l t1 t2 x : ity_ok t1 = true -> ity_ok t2 = true -> 0 <= x <= maxv t1 ->
  wrap (uac t1 t2) x = x.
Proof. intros. apply wrap_id; [apply uac_ok; auto | apply nn_range_l; auto]. Qed.
Lemma nn_wrap_r t1 t2 x : ity_ok t1 = true -> ity_ok t2 = true -> 0 <= x <= maxv t2 ->
  wrap (uac t1 t2) x = x.
Proof. intros. apply wrap_id; [apply uac_ok; auto | apply nn_range_r; auto]. Qed.
Lemma nn_wrap t x : ity_ok t = true -> 0 <= x <= maxv t -> wrap t x = x.
Proof. intros. apply wrap_id; [auto | apply in_range_nn_i; auto]. Qed.

Section NN.
  Variables (t1 t2 : ity) (x y : Z).
  Hypotheses (K1 : ity_ok t1 = true) (K2 : ity_ok t2 = true)
             (Hx : 0 <= x <= maxv t1) (Hy : 0 <= y <= maxv t2).
  Lemma nn_div : y <> 0 -> c_div t1 t2 x y = Ok (x / y).
  Proof.
    intros N. unfold c_div. cbv zeta. rewrite (nn_wrap_l t1 t2 x K1 K2 Hx), (nn_wrap_r t1 t2 y K1 K2 Hy).
    destruct (Z.eqb_spec y 0) as [E|_]; [contradiction|].
    rewrite Z.quot_div_nonneg by (cb; lia).
    apply arith_ok; [apply uac_ok; auto|]. apply nn_range_l; auto.
    split; [apply Z.div_pos; cb; lia|].
    apply Z.le_trans with x; [|apply Hx]. apply Z.div_le_upper_bound; cb; nia.
  Qed.
  Lemma nn_rem : y <> 0 -> c_rem t1 t2 x y = Ok (x mod y).
  Proof.
    intros N. unfold c_rem. cbv zeta. rewrite (nn_wrap_l t1 t2 x K1 K2 Hx), (nn_wrap_r t1 t2 y K1 K2 Hy).
    destruct (Z.eqb_spec y 0) as [E|_]; [contradiction|].
    rewrite Z.quot_div_nonneg by (cb; lia).
    assert (R : in_range (uac t1 t2) (x / y) = true).
    { apply nn_range_l; auto. split; [apply Z.div_pos; cb; lia|].
      apply Z.le_trans with x; [|apply Hx]. apply Z.div_le_upper_bound; cb; nia. }
    rewrite R, andb_false_r. rewrite Z.rem_mod_nonneg by (cb; lia). reflexivity.
  Qed.
  Lemma nn_mul : x * y <= maxv (uac t1 t2) -> c_mul t1 t2 x y = Ok (x * y).
  Proof.
    intros N. unfold c_mul. cbv zeta. rewrite (nn_wrap_l t1 t2 x K1 K2 Hx), (nn_wrap_r t1 t2 y K1 K2 Hy).
    apply arith_ok; [apply uac_ok; auto|]. apply in_range_nn_i; [apply uac_ok; auto|].
    cb; nia.
  Qed.
  Lemma nn_add : x + y <= maxv (uac t1 t2) -> c_add t1 t2 x y = Ok (x + y).
  Proof.
    intros N. unfold c_add. cbv zeta. rewrite (nn_wrap_l t1 t2 x K1 K2 Hx), (nn_wrap_r t1 t2 y K1 K2 Hy).
    apply arith_ok; [apply uac_ok; auto|]. apply in_range_nn_i; [apply uac_ok; auto|].
    cb; lia.
  Qed.
  Lemma nn_sub : y <= x -> c_sub t1 t2 x y = Ok (x - y).
  Proof.
    intros N. unfold c_sub. cbv zeta. rewrite (nn_wrap_l t1 t2 x K1 K2 Hx), (nn_wrap_r t1 t2 y K1 K2 Hy).
    apply arith_ok; [apply uac_ok; auto|]. apply nn_range_l; auto. cb; lia.
  Qed.
  Lemma nn_lt : c_lt t1 t2 x y = (x <? y).
  Proof. unfold c_lt. cbv zeta. rewrite (nn_wrap_l t1 t2 x K1 K2 Hx), (nn_wrap_r t1 t2 y K1 K2 Hy). reflexivity. Qed.
  Lemma nn_le : c_le t1 t2 x y = (x <=? y).
  Proof. unfold c_le. cbv zeta. rewrite (nn_wrap_l t1 t2 x K1 K2 Hx), (nn_wrap_r t1 t2 y K1 K2 Hy). reflexivity. Qed.
  Lemma nn_eq : c_eq t1 t2 x y = (x =? y).
  Proof. unfold c_eq. cbv zeta. rewrite (nn_wrap_l t1 t2 x K1 K2 Hx), (nn_wrap_r t1 t2 y K1 K2 Hy). reflexivity. Qed.
End NN.

(** operands of any sign when the common type is signed *)
Section SG.
  Variables (t1 t2 : ity) (x y : Z).
  Hypotheses (K1 : ity_ok t1 = true) (K2 : ity_ok t2 = true) (S : sgn (uac t1 t2) = true)
             (Hx : in_range t1 x = true) (Hy : in_range t2 y = true).
  Lemma sg_wrap : wrap (uac t1 t2) x = x /\ wrap (uac t1 t2) y = y.
  Proof. apply uac_signed_id; auto. Qed.
  Lemma sg_add : c_add t1 t2 x y = if in_range (uac t1 t2) (x + y) then Ok (x + y) else UB.
  Proof. unfold c_add, arith. cbv zeta. destruct sg_wrap as [-> ->]. rewrite S. reflexivity. Qed.
  Lemma sg_sub : c_sub t1 t2 x y = if in_range (uac t1 t2) (x - y) then Ok (x - y) else UB.
  Proof. unfold c_sub, arith. cbv zeta. destruct sg_wrap as [-> ->]. rewrite S. reflexivity. Qed.
  Lemma sg_mul : c_mul t1 t2 x y = if in_range (uac t1 t2) (x * y) then Ok (x * y) else UB.
  Proof. unfold c_mul, arith. cbv zeta. destruct sg_wrap as [-> ->]. rewrite S. reflexivity. Qed.
  Lemma sg_div : c_div t1 t2 x y =
    if y =? 0 then UB else if in_range (uac t1 t2) (Z.quot x y) then Ok (Z.quot x y) else UB.
  Proof. unfold c_div, arith. cbv zeta. destruct sg_wrap as [-> ->]. rewrite S. reflexivity. Qed.
  Lemma sg_lt : c_lt t1 t2 x y = (x <? y).
  Proof. unfold c_lt. cbv zeta. destruct sg_wrap as [-> ->]. reflexivity. Qed.
  Lemma sg_le : c_le t1 t2 x y = (x <=? y).
  Proof. unfold c_le. cbv zeta. destruct sg_wrap as [-> ->]. reflexivity. Qed.
  Lemma sg_eq : c_eq t1 t2 x y = (x =? y).
  Proof. unfold c_eq. cbv zeta. destruct sg_wrap as [-> ->]. reflexivity. Qed.
End SG.

Lemma promote_signed t : sgn t = true -> sgn (promote t) = true.
Proof. intros. unfold promote. destruct (bits t <? 32); auto. Qed.
Lemma uac_i32_signed t : sgn t = true -> sgn (uac t int32) = true.
Proof.
  intros S. pose proof (promote_signed t S) as SP. unfold uac. rewrite SP. change (promote int32) with int32.
  cbn [sgn int32 Bool.eqb]. destruct (bits (promote t) <? bits int32); [reflexivity|exact SP].
Qed.
