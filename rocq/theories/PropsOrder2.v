(** Property theorems C168-C170: the order of integer powers, of roots, and hypot of fixed64.  Statements only; proofs are in
    PowOrder.v, RootOrder.v and Hypot64.v.  [fx_pow_int c t b n]: pow(b, n) with n of the integer type t. *)
From Coq Require Import ZArith QArith Qabs Bool.
From Verif Require Import Base Fixed Math Spec PowOrder NewtonProofs RootOrder Hypot64.
Open Scope Z_scope.

(** C168: a larger non-negative base gives no smaller power, as long as the larger power is in range *)
Theorem C168_base : forall c t a b n, wf c = true -> cr c = false -> (sgn (ct c) = true -> cf c <= bits (ct c) - 2) ->
  ity_ok t = true -> in_range t n = true -> valid c a = true -> valid c b = true -> 0 <= n ->
  (0 <= qval (cf c) a)%Q -> (qval (cf c) a <= qval (cf c) b)%Q ->
  (qval (cf c) b ^ n <= qval (cf c) (hi (bits (ct c)) (sgn (ct c))))%Q ->
  exists p q, fx_pow_int c t a n = Ok p /\ fx_pow_int c t b n = Ok q /\ valid c p = true /\ valid c q = true /\
    (qval (cf c) p <= qval (cf c) q)%Q.
Proof. exact (fun c t a b n W N S => pow_base_order c W N S t a b n). Qed.
(** ... and a larger exponent no smaller a power of a base at least one, no larger a power of a base at most one *)
Theorem C168_exponent : forall c t b n k, wf c = true -> cr c = false -> (sgn (ct c) = true -> cf c <= bits (ct c) - 2) ->
  ity_ok t = true -> in_range t k = true -> valid c b = true -> 0 <= n <= k -> (0 <= qval (cf c) b)%Q ->
  (qval (cf c) b ^ k <= qval (cf c) (hi (bits (ct c)) (sgn (ct c))))%Q ->
  exists p q, fx_pow_int c t b n = Ok p /\ fx_pow_int c t b k = Ok q /\ valid c p = true /\ valid c q = true /\
    ((1 <= qval (cf c) b)%Q -> (qval (cf c) p <= qval (cf c) q)%Q) /\ ((qval (cf c) b <= 1)%Q -> (qval (cf c) q <= qval (cf c) p)%Q).
Proof. exact (fun c t b n k W N S => pow_exp_order c W N S t b n k). Qed.
(** 1.1^19 <= 1.1^20 <= 1.1001^20, and 0.9^7 <= 0.9^6 *)
Example C168_case : fx_pow_int F32 int32 72090 19 = Ok 400824 /\ fx_pow_int F32 int32 72090 20 = Ok 440906 /\
  fx_pow_int F32 int32 72096 20 = Ok 441620 /\ fx_pow_int F32 int32 58982 7 = Ok 31342 /\ fx_pow_int F32 int32 58982 6 = Ok 34825 /\
  (qval 16 72096 ^ 20 <= qval 16 (hi 32 true))%Q.
Proof. vm_compute. repeat split; congruence. Qed.

(** C169: one ulp more under the root, and the fixed64 result falls by 0.0013; cbrt falls too, in both types *)
Theorem C169_sqrt64_refuted : exists x y r s, valid F64 x = true /\ valid F64 y = true /\ (0 <= qval 32 x)%Q /\ (qval 32 x < qval 32 y)%Q /\
  fx_sqrt F64 x = Ok r /\ fx_sqrt F64 y = Ok s /\ (qval 32 s + (13 # 10000) < qval 32 r)%Q.
Proof. exists 2097151, 2097152, 100663264, 95070890. vm_compute. repeat split; congruence. Qed.
Theorem C169_cbrt32_refuted : exists x y r s, valid F32 x = true /\ valid F32 y = true /\ (0 <= qval 16 x)%Q /\ (qval 16 x < qval 16 y)%Q /\
  fx_cbrt F32 x = Ok r /\ fx_cbrt F32 y = Ok s /\ (qval 16 s + qval 16 42 < qval 16 r)%Q.
Proof. exists 1214, 1215, 17389, 17346. vm_compute. repeat split; congruence. Qed.
Theorem C169_cbrt64_refuted : exists x y r s, valid F64 x = true /\ valid F64 y = true /\ (0 <= qval 32 x)%Q /\ (qval 32 x < qval 32 y)%Q /\
  fx_cbrt F64 x = Ok r /\ fx_cbrt F64 y = Ok s /\ (qval 32 s + (5 # 100000) < qval 32 r)%Q.
Proof. exists 4386751020, 4386751021, 4325561870, 4325346496. vm_compute. repeat split; congruence. Qed.
Theorem C169_hypot64_refuted : exists x x' r r', valid F64 x = true /\ valid F64 x' = true /\ (0 <= qval 32 x)%Q /\ (qval 32 x < qval 32 x')%Q /\
  fx_hypot F64 x 0 = Ok r /\ fx_hypot F64 x' 0 = Ok r' /\ (qval 32 r' + (13 # 10000) < qval 32 r)%Q.
Proof. exists 94906265, 94906266, 100663264, 95070890. vm_compute. repeat split; congruence. Qed.
(** arguments 5/65536 apart keep their order under the fixed64 root, and it never falls by more than 0.0088 *)
Theorem C169_sqrt64 : forall x y, (0 <= qval 32 x)%Q -> y < 8432131806905434112 -> (qval 32 x + (5 # 65536) <= qval 32 y)%Q ->
  exists r s, fx_sqrt F64 x = Ok r /\ fx_sqrt F64 y = Ok s /\ (qval 32 r <= qval 32 s)%Q.
Proof. exact sqrt64_apart_q. Qed.
Theorem C169_sqrt64_fall : forall x y, (0 <= qval 32 x)%Q -> (qval 32 x <= qval 32 y)%Q -> y < 8432131806905434112 ->
  exists r s, fx_sqrt F64 x = Ok r /\ fx_sqrt F64 y = Ok s /\ (qval 32 r <= qval 32 s + (88 # 10000))%Q.
Proof. exact sqrt64_fall_q. Qed.
Theorem C169_cbrt64 : forall x y, (0 <= qval 32 x)%Q -> (qval 32 y <= 3868)%Q -> (qval 32 x + qval 32 1310736 <= qval 32 y)%Q ->
  exists r s, fx_cbrt F64 x = Ok r /\ fx_cbrt F64 y = Ok s /\ (qval 32 r < qval 32 s)%Q.
Proof. exact cbrt64_apart_q. Qed.
Example C169_case : fx_sqrt F64 2097151 = Ok 100663264 /\ fx_sqrt F64 2424831 = Ok 102061376 /\ (qval 32 2097151 + (5 # 65536) <= qval 32 2424831)%Q /\
  fx_cbrt F64 4386751020 = Ok 4325561870 /\ fx_cbrt F64 4388061756 = Ok 4325777250.
Proof. vm_compute. repeat split; congruence. Qed.

(** C170: hypot(60000, 0) = -1, and hypot(44309, 0) is undefined *)
Theorem C170_hypot64_refuted : exists x y r, valid F64 x = true /\ valid F64 y = true /\
  (qval 32 x == 60000)%Q /\ (qval 32 y == 0)%Q /\ fx_hypot F64 x y = Ok r /\ (qval 32 r == -1 # 1)%Q.
Proof. exists (60000 * 2 ^ 32), 0, (- 2 ^ 32). vm_compute. repeat split; congruence. Qed.
Theorem C170_hypot64_undefined : forall x y, valid F64 x = true -> valid F64 y = true ->
  (qval 32 8432131806905434112 + (2 # 4294967296) <= qval 32 x * qval 32 x + qval 32 y * qval 32 y)%Q ->
  (qval 32 x * qval 32 x + qval 32 y * qval 32 y < 2147483648)%Q -> fx_hypot F64 x y = UB.
Proof. exact hypot64_undefined. Qed.
Theorem C170_hypot64 : forall x y, valid F64 x = true -> valid F64 y = true ->
  (qval 32 x * qval 32 x + qval 32 y * qval 32 y < qval 32 8432131806905434112)%Q ->
  exists r, fx_hypot F64 x y = Ok r /\ (0 <= qval 32 r)%Q /\
    (Qabs (qval 32 r * qval 32 r - (qval 32 x * qval 32 x + qval 32 y * qval 32 y)) < (5 # 65536) + (2 # 4294967296))%Q /\
    (qval 32 x * qval 32 x + qval 32 y * qval 32 y < qval 32 (r + 1) * qval 32 (r + 1) + (2 # 4294967296))%Q.
Proof. exact hypot64_thm. Qed.
Theorem C170_hypot3_64 : forall x y z, valid F64 x = true -> valid F64 y = true -> valid F64 z = true ->
  (qval 32 x * qval 32 x + qval 32 y * qval 32 y + qval 32 z * qval 32 z < qval 32 8432131806905434112)%Q ->
  exists r, fx_hypot3 F64 x y z = Ok r /\ (0 <= qval 32 r)%Q /\
    (Qabs (qval 32 r * qval 32 r - (qval 32 x * qval 32 x + qval 32 y * qval 32 y + qval 32 z * qval 32 z)) < (5 # 65536) + (3 # 4294967296))%Q /\
    (qval 32 x * qval 32 x + qval 32 y * qval 32 y + qval 32 z * qval 32 z < qval 32 (r + 1) * qval 32 (r + 1) + (3 # 4294967296))%Q.
Proof. exact hypot3_64_thm. Qed.
Theorem C170_hypot64_order : forall x y x' y', valid F64 x = true -> valid F64 y = true -> valid F64 x' = true -> valid F64 y' = true ->
  (Qabs (qval 32 x) <= Qabs (qval 32 x'))%Q -> (Qabs (qval 32 y) <= Qabs (qval 32 y'))%Q ->
  (qval 32 x' * qval 32 x' + qval 32 y' * qval 32 y' < qval 32 8432131806905434112)%Q ->
  exists r r', fx_hypot F64 x y = Ok r /\ fx_hypot F64 x' y' = Ok r' /\ (qval 32 r <= qval 32 r' + qval 32 37515000)%Q /\
    ((qval 32 x * qval 32 x + qval 32 y * qval 32 y + ((5 # 65536) + (2 # 4294967296)) <= qval 32 x' * qval 32 x' + qval 32 y' * qval 32 y')%Q ->
     (qval 32 r <= qval 32 r')%Q).
Proof. exact hypot64_order. Qed.
(** (-3, 4) has length 5 (to 997 ulp), (1, -2, 2) length 3, and the hypotheses hold at them *)
Example C170_case : fx_hypot F64 (-3 * 2 ^ 32) (4 * 2 ^ 32) = Ok 21474837477 /\ fx_hypot3 F64 (2 ^ 32) (-2 * 2 ^ 32) (2 * 2 ^ 32) = Ok 12884901888 /\
  (qval 32 (-3 * 2 ^ 32) * qval 32 (-3 * 2 ^ 32) + qval 32 (4 * 2 ^ 32) * qval 32 (4 * 2 ^ 32) < qval 32 8432131806905434112)%Q /\
  fx_hypot F64 (44309 * 2 ^ 32) 0 = UB /\
  (qval 32 8432131806905434112 + (2 # 4294967296) <= qval 32 (44309 * 2 ^ 32) * qval 32 (44309 * 2 ^ 32) + qval 32 0 * qval 32 0)%Q.
Proof. vm_compute. repeat split; congruence. Qed.
Print Assumptions C168_base.
Print Assumptions C168_exponent.
Print Assumptions C169_sqrt64_refuted.
Print Assumptions C169_cbrt32_refuted.
Print Assumptions C169_cbrt64_refuted.
Print Assumptions C169_hypot64_refuted.
Print Assumptions C169_sqrt64.
Print Assumptions C169_sqrt64_fall.
Print Assumptions C169_cbrt64.
Print Assumptions C170_hypot64_refuted.
Print Assumptions C170_hypot64_undefined.
Print Assumptions C170_hypot64.
Print Assumptions C170_hypot3_64.
Print Assumptions C170_hypot64_order.
