(** Property theorems C26-C39, C44, C55: rounding, roots, integer powers.  Statements only; proofs are in
    MathThms.v, NewtonProofs.v, PowProofs.v, RefuteMath.v. *)
From Coq Require Import ZArith Bool QArith Qabs.
From Verif Require Import Base Fixed Math Spec ArithProofs MathThms NewtonProofs PowProofs RefuteMath FmodAny SqrtNeg.
Open Scope Z_scope.

(** C26 *)
Theorem C26_trunc : forall c m n, wf c = true -> valid c m = true -> is_trunc 0 (qval (cf c) m) n ->
  exists r, fx_trunc c m = Ok r /\ valid c r = true /\ (qval (cf c) r == inject_Z n)%Q.
Proof. exact trunc_thm. Qed.
Example C26_case : is_trunc 0 (qval 16 (-98304)) (-1) /\ fx_trunc F32 (-98304) = Ok (-65536).
Proof. repeat split; intros; vm_compute in *; congruence. Qed.

(** C27: at the bottom of the range the code subtracts before dividing and overflows ... *)
Theorem C27_floor_bottom_refuted :
  exists m, valid F32 m = true /\ (qval 16 m == inject_Z (-32768))%Q /\ fx_floor F32 m = UB.
Proof. exact floor_refuted. Qed.
(** ... everywhere else it is the floor.  [int_bit c]: a signed store of >= 32 bits has an integer bit. *)
Theorem C27_floor : forall c m n, wf c = true -> valid c m = true -> is_floor 0 (qval (cf c) m) n ->
  (0 <= qval (cf c) m)%Q \/ (int_bit c /\ fits (bits (ct c)) (sgn (ct c)) (m - (2 ^ cf c - 1))) ->
  exists r, fx_floor c m = Ok r /\ valid c r = true /\ (qval (cf c) r == inject_Z n)%Q.
Proof. exact floor_thm. Qed.
Example C27_case : is_floor 0 (qval 16 (-98304)) (-2) /\ int_bit F32 /\ fits 32 true (-98304 - (2 ^ 16 - 1)) /\
  fx_floor F32 (-98304) = Ok (-131072).
Proof. repeat split; intros; vm_compute in *; congruence. Qed.

(** C28: every negative argument comes out 1 - 2^-f too large ... *)
Theorem C28_ceil_negative_refuted :
  exists m r, valid F32 m = true /\ is_ceil 0 (qval 16 m) (-1) /\ fx_ceil F32 m = Ok r /\
  ~ (qval 16 r == inject_Z (-1))%Q.
Proof. exact ceil_refuted. Qed.
Theorem C28_ceil_negative : forall c m n, wf c = true -> valid c m = true -> int_bit c ->
  is_ceil 0 (qval (cf c) m) n -> (qval (cf c) m < 0)%Q ->
  exists r, fx_ceil c m = Ok r /\ valid c r = true /\ (qval (cf c) r == inject_Z n + (1 - qval (cf c) 1))%Q.
Proof. exact ceil_neg_thm. Qed.
(** ... non-negative arguments are right whenever the ceiling is representable. *)
Theorem C28_ceil_nonnegative : forall c m n, wf c = true -> valid c m = true -> is_ceil 0 (qval (cf c) m) n ->
  (0 <= qval (cf c) m)%Q -> representable (bits (ct c)) (sgn (ct c)) (cf c) (inject_Z n) ->
  exists r, fx_ceil c m = Ok r /\ valid c r = true /\ (qval (cf c) r == inject_Z n)%Q.
Proof. exact ceil_thm. Qed.
Example C28_case : is_ceil 0 (qval 16 98305) 2 /\ fx_ceil F32 98305 = Ok 131072 /\
  fx_ceil F32 (-98304) = Ok (-1) /\ representable 32 true 16 (inject_Z 2).
Proof.
  split; [vm_compute; split; congruence|]. split; [reflexivity|]. split; [reflexivity|].
  exists 131072. vm_compute. repeat split; congruence.
Qed.

(** C29 *)
Theorem C29_round : forall c m n, wf c = true -> valid c m = true -> is_nearest_away 0 (qval (cf c) m) n ->
  representable (bits (ct c)) (sgn (ct c)) (cf c) (inject_Z n) ->
  exists r, fx_round c m = Ok r /\ valid c r = true /\ (qval (cf c) r == inject_Z n)%Q.
Proof. exact round_thm. Qed.
Example C29_case : is_nearest_away 0 (qval 16 (-98304)) (-2) /\ fx_round F32 (-98304) = Ok (-131072) /\
  fx_round F32 98303 = Ok 65536.
Proof. repeat split; intros; vm_compute in *; congruence. Qed.

(** C30 *)
Theorem C30_modf_bottom_refuted :
  exists m, valid F32 m = true /\ (qval 16 m == inject_Z (-32768))%Q /\ fx_modf F32 m = UB.
Proof. exact modf_refuted. Qed.
Theorem C30_modf : forall c m n, wf c = true -> valid c m = true -> is_floor 0 (qval (cf c) m) n ->
  (0 <= qval (cf c) m)%Q \/ (int_bit c /\ fits (bits (ct c)) (sgn (ct c)) (m - (2 ^ cf c - 1))) ->
  exists r i, fx_modf c m = Ok (r, i) /\ valid c r = true /\ valid c i = true /\ (qval (cf c) i == inject_Z n)%Q /\
    (0 <= qval (cf c) r)%Q /\ (qval (cf c) r < 1)%Q /\ (qval (cf c) i + qval (cf c) r == qval (cf c) m)%Q.
Proof. exact modf_thm. Qed.
Example C30_case : fx_modf F32 (-98304) = Ok (32768, -131072). Proof. reflexivity. Qed.

(** C31 *)
Theorem C31_fmod_refuted : exists a b r, valid F32 a = true /\ valid F32 b = true /\ (0 < qval 16 b)%Q /\
  fx_fmod F32 a b = Ok r /\ (qval 16 r < 0)%Q.
Proof. exact fmod_refuted. Qed.
Theorem C31_fmod_nonnegative : forall c a b, wf c = true -> cr c = false -> valid c a = true -> valid c b = true ->
  (0 <= qval (cf c) a)%Q -> (0 < qval (cf c) b)%Q ->
  (forall q, is_trunc (cf c) (qval (cf c) a / qval (cf c) b) q -> fits (bits (ct c)) (sgn (ct c)) q) ->
  exists r k, fx_fmod c a b = Ok r /\ valid c r = true /\ (0 <= qval (cf c) r)%Q /\ (qval (cf c) r < qval (cf c) b)%Q /\
    (qval (cf c) a == inject_Z k * qval (cf c) b + qval (cf c) r)%Q.
Proof. exact fmod_thm. Qed.
Theorem C31_fmod_any_sign : forall c a b q, wf c = true -> cr c = false -> valid c a = true -> valid c b = true -> b <> 0 ->
  is_trunc (cf c) (qval (cf c) a / qval (cf c) b) q -> fits (bits (ct c)) (sgn (ct c)) q ->
  (0 <= qval (cf c) q)%Q \/ (int_bit c /\ fits (bits (ct c)) (sgn (ct c)) (q - (2 ^ cf c - 1))) ->
  fits (bits (ct c)) (sgn (ct c)) (Z.abs a + Z.abs b) ->
  exists r k, fx_fmod c a b = Ok r /\ valid c r = true /\
    (qval (cf c) a == inject_Z k * qval (cf c) b + qval (cf c) r)%Q /\
    (- qval (cf c) 1 < qval (cf c) r / qval (cf c) b)%Q /\ (qval (cf c) r / qval (cf c) b < 1)%Q /\
    ((0 <= qval (cf c) a / qval (cf c) b)%Q -> (0 <= qval (cf c) r / qval (cf c) b)%Q).
Proof. exact fmod_any. Qed.
Example C31_any_sign_case : is_trunc 16 (qval 16 (-360448) / qval 16 98304) (-240298) /\
  fits 32 true (-240298 - (2 ^ 16 - 1)) /\ int_bit F32 /\ fx_fmod F32 (-360448) 98304 = Ok 32768 /\
  fx_fmod F32 360448 (-98304) = Ok (-32768) /\ fx_fmod F32 (-360448) (-98304) = Ok (-65536).
Proof. unfold int_bit. repeat split; intros; vm_compute in *; congruence. Qed.
Example C31_case : fx_fmod F32 360448 98304 = Ok 65536 /\ is_trunc 16 (qval 16 360448 / qval 16 98304) 240298 /\
  fx_fmod F32 (-98304) 65536 = Ok 32768.
Proof. repeat split; intros; vm_compute in *; congruence. Qed.

(** C32 *)
Theorem C32_abs : forall c m, wf c = true -> valid c m = true ->
  (representable (bits (ct c)) (sgn (ct c)) (cf c) (Qabs (qval (cf c) m)) ->
     exists r, fx_abs c m = Ok r /\ valid c r = true /\ (qval (cf c) r == Qabs (qval (cf c) m))%Q) /\
  (fx_abs c m = UB <-> wide_signed c = true /\ m = - 2 ^ (bits (ct c) - 1)).
Proof. exact abs_thm. Qed.
Theorem C32_minmax : forall c a b, wf c = true -> valid c a = true -> valid c b = true ->
  (fx_min c a b = a \/ fx_min c a b = b) /\ (qval (cf c) (fx_min c a b) <= qval (cf c) a)%Q /\
  (qval (cf c) (fx_min c a b) <= qval (cf c) b)%Q /\
  (fx_max c a b = a \/ fx_max c a b = b) /\ (qval (cf c) a <= qval (cf c) (fx_max c a b))%Q /\
  (qval (cf c) b <= qval (cf c) (fx_max c a b))%Q.
Proof. exact minmax_thm. Qed.
Example C32_case : fx_abs F32 (-98304) = Ok 98304 /\ fx_min F32 (-1) 5 = -1 /\ fx_max F32 (-1) 5 = 5.
Proof. repeat split. Qed.

(** C33 *)
Theorem C33_sqrt32 : forall m, valid F32 m = true -> (0 <= qval 16 m)%Q ->
  exists r, fx_sqrt F32 m = Ok r /\ valid F32 r = true /\ (0 <= qval 16 r)%Q /\
    (qval 16 r * qval 16 r <= qval 16 m)%Q /\
    (forall s, (qval 16 r < qval 16 s)%Q -> (qval 16 m < qval 16 s * qval 16 s)%Q).
Proof. exact sqrt32_thm. Qed.
Example C33_case : fx_sqrt F32 131072 = Ok 92681 /\ fx_sqrt F32 2147483647 = Ok 11863283.
Proof. split; vm_compute; reflexivity. Qed.

(** C34: the result is not scaled back from 16 fraction bits ... *)
Theorem C34_sqrt_width_refuted : exists m r, wf I32_20 = true /\ valid I32_20 m = true /\ (qval 20 m == 4)%Q /\
  fx_sqrt I32_20 m = Ok r /\ (qval 20 r == 1 # 8)%Q.
Proof. exact sqrt_width_refuted. Qed.
(** ... it is the truncated root read with 16 fraction bits, whatever the width. *)
Theorem C34_sqrt_int32 : forall c m V, wf c = true -> ct c = int32 -> valid c m = true -> (0 <= qval (cf c) m)%Q ->
  is_floor 16 (qval (cf c) m) V -> fits 32 true V ->
  exists r, fx_sqrt c m = Ok r /\ (0 <= qval 16 r)%Q /\
    (qval 16 r * qval 16 r <= qval 16 V)%Q /\ (qval 16 V < qval 16 (r + 1) * qval 16 (r + 1))%Q.
Proof. exact sqrt_int32_thm. Qed.
Example C34_case : is_floor 16 (qval 20 4194304) 262144 /\ fits 32 true 262144 /\ fx_sqrt I32_20 4194304 = Ok 131072.
Proof. vm_compute. repeat split; congruence. Qed.

(** C35: undefined from 1963257856.0 on ... *)
Theorem C35_sqrt64_refuted : exists m, valid F64 m = true /\ (0 < qval 32 m)%Q /\ fx_sqrt F64 m = UB.
Proof. exact sqrt64_refuted. Qed.
Theorem C35_sqrt64_undefined_from_limit : forall m, 8432131806905434112 <= m < 2 ^ 63 -> fx_sqrt F64 m = UB.
Proof. exact sqrt64_overflow. Qed.
(** ... accurate below. *)
Theorem C35_sqrt64 : forall m, 0 < m < 8432131806905434112 ->
  exists r, fx_sqrt F64 m = Ok r /\ (0 < qval 32 r)%Q /\
    (Qabs (qval 32 r * qval 32 r - qval 32 m) < 5 # 65536)%Q /\
    (qval 32 m < qval 32 (r + 1) * qval 32 (r + 1))%Q /\
    ((3 # 1000 <= qval 32 r)%Q -> ((qval 32 r - (3 # 1000)) * (qval 32 r - (3 # 1000)) <= qval 32 m)%Q).
Proof. exact sqrt64_thm. Qed.
Example C35_case : fx_sqrt F64 8589934592 = Ok 6074010122.
Proof. vm_compute; reflexivity. Qed.

(** C36: right for every store except int32_t, whose branch does not test the sign *)
Theorem C36_sqrt_negative : forall c m, wf c = true -> (sgn (ct c) && (bits (ct c) =? 32)) = false ->
  valid c m = true -> (qval (cf c) m < 0)%Q -> exists r, fx_sqrt c m = Ok r /\ (qval (cf c) r == -1 # 1)%Q.
Proof. exact sqrt_generic_neg. Qed.
(** fixed32: every negative argument gives a value between 255 and 384 *)
Theorem C36_sqrt32_negative_positive : forall m, valid F32 m = true -> (qval 16 m < 0)%Q ->
  exists r, fx_sqrt F32 m = Ok r /\ valid F32 r = true /\ (255 < qval 16 r)%Q /\ (qval 16 r < 384)%Q.
Proof. exact sqrt32_neg_thm. Qed.
Theorem C36_sqrt32_negative_refuted :
  exists m r, valid F32 m = true /\ (qval 16 m < 0)%Q /\ fx_sqrt F32 m = Ok r /\ (383 < qval 16 r)%Q.
Proof. exact sqrt32_neg_refuted. Qed.
Example C36_case : fx_sqrt F64 (-5) = Ok (-4294967296) /\ fx_sqrt F32 (-1) = Ok 25165823.
Proof. split; vm_compute; reflexivity. Qed.

(** C38 *)
Theorem C38_pow_terminates : forall c t b e, wf c = true -> cr c = false -> ity_ok t = true -> in_range t e = true ->
  valid c b = true -> 0 <= e -> exists m, fx_pow_int c t b e = Ok m /\ valid c m = true.
Proof. exact (fun c t b e W R => pow_int_total c W R t b e). Qed.
Theorem C38_pow_terminates_any_sign : forall c t b e, ity_ok t = true -> in_range t e = true ->
  fx_pow_int c t b e = UB \/ exists m, fx_pow_int c t b e = Ok m.
Proof. exact pow_int_terminates. Qed.
Theorem C38_pow_zero_one : forall c t b, wf c = true -> cr c = false -> ity_ok t = true -> valid c b = true ->
  representable (bits (ct c)) (sgn (ct c)) (cf c) 1 ->
  (exists m, fx_pow_int c t b 0 = Ok m /\ (qval (cf c) m == 1)%Q) /\ fx_pow_int c t b 1 = Ok b.
Proof. exact pow_01_thm. Qed.
(** stronger than asked: exact whenever the power itself is representable, and exact modulo 2^width always *)
Theorem C38_pow_exact : forall c t B n, wf c = true -> cr c = false -> ity_ok t = true -> in_range t n = true -> 0 <= n ->
  representable (bits (ct c)) (sgn (ct c)) (cf c) (inject_Z B) ->
  exists m, fx_pow_int c t (B * 2 ^ cf c) n = Ok m /\ valid c m = true /\ cong (bits (ct c)) m (B ^ n * 2 ^ cf c) /\
    (representable (bits (ct c)) (sgn (ct c)) (cf c) (inject_Z (B ^ n)) -> (qval (cf c) m == inject_Z (B ^ n))%Q).
Proof. exact pow_exact_thm. Qed.
Example C38_case : fx_pow_int F32 int32 (-3 * 65536) 5 = Ok (-243 * 65536) /\ fx_pow_int F32 uint64 98304 2 = Ok 147456.
Proof. split; vm_compute; reflexivity. Qed.

(** C39 *)
Theorem C39_pow_negative_refuted : exists b, valid F32 b = true /\ b <> 0 /\ fx_pow_int F32 int32 b (-2) = UB.
Proof. exact pow_neg_refuted. Qed.
Theorem C39_pow_negative_256_refuted : exists b, valid F32 b = true /\ (qval 16 b == 256)%Q /\ fx_pow_int F32 int32 b (-2) = UB.
Proof. exact pow_neg_refuted'. Qed.
Theorem C39_pow_negative_integer_base : forall c t B n r, wf c = true -> cr c = false -> ity_ok t = true ->
  in_range t (- n) = true -> 0 < n -> B <> 0 ->
  representable (bits (ct c)) (sgn (ct c)) (cf c) 1 ->
  representable (bits (ct c)) (sgn (ct c)) (cf c) (inject_Z B) ->
  representable (bits (ct c)) (sgn (ct c)) (cf c) (inject_Z (B ^ n)) ->
  is_trunc (cf c) (1 / inject_Z (B ^ n)) r ->
  fx_pow_int c t (B * 2 ^ cf c) (- n) = Ok r.
Proof. exact pow_neg_thm. Qed.
Example C39_case : fx_pow_int F32 int32 (-3 * 65536) (-3) = Ok (-2427) /\ is_trunc 16 (1 / inject_Z (-27)) (-2427).
Proof. repeat split; intros; vm_compute in *; congruence. Qed.

(** C55 *)
Theorem C55_hypot_symmetric : forall c x y, wf c = true -> cr c = false -> valid c x = true -> valid c y = true ->
  fx_hypot c x y = fx_hypot c y x.
Proof. exact hypot_comm. Qed.
Theorem C55_hypot_sign : forall c x y, wf c = true -> cr c = false -> valid c x = true -> valid c y = true ->
  valid c (- x) = true -> valid c (- y) = true ->
  fx_hypot c (- x) y = fx_hypot c x y /\ fx_hypot c x (- y) = fx_hypot c x y.
Proof. exact hypot_sign. Qed.
Theorem C55_hypot32 : forall x y a b, valid F32 x = true -> valid F32 y = true ->
  is_floor 16 (qval 16 x * qval 16 x) a -> is_floor 16 (qval 16 y * qval 16 y) b -> fits 32 true (a + b) ->
  exists r, fx_hypot F32 x y = Ok r /\ valid F32 r = true /\ (0 <= qval 16 r)%Q /\
    (qval 16 r * qval 16 r <= qval 16 (a + b))%Q /\ (qval 16 (a + b) < qval 16 (r + 1) * qval 16 (r + 1))%Q.
Proof. exact hypot32_thm. Qed.
Theorem C55_truncated_sum : forall x y a b,
  is_floor 16 (qval 16 x * qval 16 x) a -> is_floor 16 (qval 16 y * qval 16 y) b ->
  (qval 16 (a + b) <= qval 16 x * qval 16 x + qval 16 y * qval 16 y)%Q /\
  (qval 16 x * qval 16 x + qval 16 y * qval 16 y < qval 16 (a + b) + qval 16 2)%Q.
Proof. exact hypot32_acc. Qed.
Example C55_case : fx_hypot F32 (-196608) 262144 = Ok 327680 /\ is_floor 16 (qval 16 (-196608) * qval 16 (-196608)) 589824.
Proof. vm_compute. repeat split; congruence. Qed.
Print Assumptions C26_trunc.
Print Assumptions C27_floor_bottom_refuted.
Print Assumptions C27_floor.
Print Assumptions C28_ceil_negative_refuted.
Print Assumptions C28_ceil_negative.
Print Assumptions C28_ceil_nonnegative.
Print Assumptions C29_round.
Print Assumptions C30_modf_bottom_refuted.
Print Assumptions C30_modf.
Print Assumptions C31_fmod_refuted.
Print Assumptions C31_fmod_nonnegative.
Print Assumptions C31_fmod_any_sign.
Print Assumptions C32_abs.
Print Assumptions C32_minmax.
Print Assumptions C33_sqrt32.
Print Assumptions C34_sqrt_width_refuted.
Print Assumptions C34_sqrt_int32.
Print Assumptions C35_sqrt64_refuted.
Print Assumptions C35_sqrt64_undefined_from_limit.
Print Assumptions C35_sqrt64.
Print Assumptions C36_sqrt_negative.
Print Assumptions C36_sqrt32_negative_positive.
Print Assumptions C36_sqrt32_negative_refuted.
Print Assumptions C38_pow_terminates.
Print Assumptions C38_pow_terminates_any_sign.
Print Assumptions C38_pow_zero_one.
Print Assumptions C38_pow_exact.
Print Assumptions C39_pow_negative_refuted.
Print Assumptions C39_pow_negative_256_refuted.
Print Assumptions C39_pow_negative_integer_base.
Print Assumptions C55_hypot_symmetric.
Print Assumptions C55_hypot_sign.
Print Assumptions C55_hypot32.
Print Assumptions C55_truncated_sum.
