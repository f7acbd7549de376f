(** Counterexamples: claims about construction and arithmetic that the code does not satisfy. *)
From Coq Require Import ZArith Bool List Lia QArith Qabs.
From Verif Require Import Base Fixed Spec BaseLemmas SpecLemmas ArithProofs.
Open Scope Z_scope.

(** fixed32 with rounding enabled *)
Definition F32r : cfg := {| ct := int32; ci := int64; cf := 16; cr := true |}.
(** unsigned 16.16 *)
Definition U32 : cfg := {| ct := uint32; ci := uint64; cf := 16; cr := false |}.
(** unsigned 1.15 *)
Definition U16_15 : cfg := {| ct := uint16; ci := uint32; cf := 15; cr := false |}.
(** signed Q0.31 (accepted by the concept) *)
Definition Q31 : cfg := {| ct := int32; ci := int64; cf := 31; cr := false |}.

Lemma float_cast_refuted :
  exists m q, wf F32 = true /\ valid F32 m = true /\ fx_to_float F32 m = Ok q /\
    (1 # 2 <= Qabs (inject_Z q - qval (cf F32) m))%Q.
Proof. exists 7503872, 114. vm_compute. repeat split; congruence. Qed.

Lemma float_ctor_round_refuted :
  exists n k m, wf F32r = true /\ 0 <= k /\ valid F32r (n * 2 ^ 16) = true /\
    fx_of_float F32r n k = Ok m /\ ~ is_nearest (cf F32r) (qval k n) m /\
    (qval (cf F32r) m == (1 # 2) * qval k n)%Q.
Proof.
  exists 1, 0, 32768. vm_compute. repeat split; try congruence.
  intros [_ H]. apply H. reflexivity.
Qed.

Lemma widen_refuted :
  exists m m', wf F32 = true /\ wf F64 = true /\ valid F32 m = true /\
    valid F64 m' = true /\ (qval (cf F64) m' == qval (cf F32) m)%Q /\ fx_of_fixed F64 F32 m = UB.
Proof. exists 65536, 4294967296. vm_compute. repeat split; congruence. Qed.

Lemma mixed_refuted :
  exists x n, wf U16_15 = true /\ valid U16_15 x = true /\
    fx_add_int U16_15 uint16 x n = UB /\ exists m, (let* v := fx_of_int U16_15 n in fx_add U16_15 x v) = Ok m.
Proof. exists 65535, 65535. vm_compute. repeat split. eexists; reflexivity. Qed.

Lemma mul_round_refuted :
  exists x y m, wf F32r = true /\ valid F32r x = true /\ valid F32r y = true /\
    fx_mul F32r x y = Ok m /\ ~ is_nearest (cf F32r) (qval (cf F32r) x * qval (cf F32r) y) m.
Proof.
  exists 65536, 65536, 131072. vm_compute. repeat split; try congruence.
  intros [H _]. apply H. reflexivity.
Qed.

Lemma div_round_refuted :
  exists x y m, wf F32r = true /\ valid F32r x = true /\ valid F32r y = true /\ y <> 0 /\
    fx_div F32r x y = Ok m /\ ~ is_nearest (cf F32r) (qval (cf F32r) x / qval (cf F32r) y) m.
Proof.
  exists 65536, 65536, 131072. vm_compute. repeat split; try congruence.
  intros [H _]. apply H. reflexivity.
Qed.

Lemma div_int_refuted :
  exists x n m, wf F32 = true /\ valid F32 x = true /\ in_range uint32 n = true /\ n <> 0 /\
    fx_div_int F32 uint32 x n = Ok m /\ (inject_Z 32767 <= qval (cf F32) m)%Q /\
    (qval (cf F32) x / inject_Z n == - (1 # 2))%Q.
Proof. exists (-65536), 2, 2147450880. vm_compute. repeat split; congruence. Qed.

Lemma inc_refuted :
  exists x, wf Q31 = true /\ valid Q31 x = true /\
    representable (bits (ct Q31)) (sgn (ct Q31)) (cf Q31) (qval (cf Q31) x + 1) /\ fx_preinc Q31 x = UB.
Proof.
  exists (- 1073741824). split; [reflexivity|]. split; [reflexivity|]. split; [|reflexivity].
  exists 1073741824. split; [vm_compute; split; congruence|]. reflexivity.
Qed.

Lemma nearly_refuted_unsigned :
  exists x e, wf U32 = true /\ valid U32 x = true /\ nearly_compare_epsilon U32 = Ok e /\ 0 < e /\
    nearly_eq U32 x x = Ok false /\ nearly_lt U32 x x = Ok true.
Proof. exists 65536, 5. vm_compute. repeat split; congruence. Qed.

Lemma nearly_refuted_overflow :
  exists x y, wf F32 = true /\ valid F32 x = true /\ valid F32 y = true /\ nearly_eq F32 x y = UB.
Proof. exists (-2147483648), 1. vm_compute. repeat split; congruence. Qed.

Lemma parts_refuted :
  exists m i fr, wf F32 = true /\ valid F32 m = true /\ fx_signbit F32 m = Ok true /\
    integral_part F32 m = Ok i /\ fractional_part F32 m = Ok fr /\
    (Qabs (qval (cf F32) m) == (3 # 2))%Q /\ ~ is_trunc 0 (Qabs (qval (cf F32) m)) i /\
    (inject_Z i + Qabs (qval (cf F32) fr) == (5 # 2))%Q.
Proof.
  exists (-98304), 2, (-32768). vm_compute. repeat split; try congruence.
  intros [H _]. specialize (H ltac:(congruence)). destruct H as [H _]. apply H. reflexivity.
Qed.

Lemma parts_refuted_ub :
  exists m, wf F32 = true /\ valid F32 m = true /\ integral_part F32 m = UB.
Proof. exists (-2147483648). vm_compute. repeat split; congruence. Qed.

Lemma is_signed_refuted :
  wf U32 = true /\ nl_is_signed U32 = true /\ forall m, valid U32 m = true -> ~ (qval (cf U32) m < 0)%Q.
Proof.
  split; [reflexivity|]. split; [reflexivity|]. intros m V H.
  unfold qval, Qlt in H; cbn [Qnum Qden] in H.
  unfold valid, in_range in V. apply andb_true_iff in V. destruct V as [V _]. apply Z.leb_le in V.
  cbn in V, H. lia.
Qed.

Lemma epsilon_refuted :
  exists e one next, nl_epsilon F32 = Ok e /\ fx_of_int F32 1 = Ok one /\ valid F32 next = true /\
    (qval 16 one < qval 16 next)%Q /\ (qval 16 next - qval 16 one < qval 16 e)%Q.
Proof. exists 5, 65536, 65537. vm_compute. repeat split; congruence. Qed.

(** numeric_limits announces rounding toward zero, but * rounds toward minus infinity *)
Lemma round_style_refuted :
  nl_round_style F32 = round_toward_zero /\
  exists x y m, valid F32 x = true /\ valid F32 y = true /\ fx_mul F32 x y = Ok m /\
    ~ is_trunc (cf F32) (qval (cf F32) x * qval (cf F32) y) m.
Proof.
  split; [reflexivity|]. exists (-1), 32768, (-1). vm_compute. repeat split.
  intros [_ H]. specialize (H ltac:(congruence)). destruct H as [_ H]. apply H. reflexivity.
Qed.
