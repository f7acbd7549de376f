(** Property theorems C171-C175: laws that join several functions. *)
From Coq Require Import ZArith QArith Qabs Reals Lia Lra.
From Verif Require Import Base Fixed Math Cordic Spec SpecReal FixedLemmas StdProofs SinThms RealThms MathThms RoundLaws LogLaws InvTrig AddThms CordicThms AgreeProofs.

Open Scope Z_scope.
(** ** C171: floor, ceil, trunc and round against one another.  [floor_dom], [ceil_dom], [round_dom]: where C27-C29 give the right value. *)
Theorem C171_ceil_order_refuted : exists m n r s, valid F32 m = true /\ valid F32 n = true /\ (qval 16 m < qval 16 n)%Q /\
  fx_ceil F32 m = Ok r /\ fx_ceil F32 n = Ok s /\ (qval 16 s < qval 16 r)%Q.
Proof. exact ceil_order_refuted. Qed.
Theorem C171_ceil_twice_refuted : exists m r s, valid F32 m = true /\ fx_ceil F32 m = Ok r /\ fx_ceil F32 r = Ok s /\ s <> r.
Proof. exact ceil_idem_refuted. Qed.
Theorem C171_floor_twice_refuted : exists m r, valid F32 m = true /\ fx_floor F32 m = Ok r /\ fx_floor F32 r = UB.
Proof. exact floor_idem_refuted. Qed.
Theorem C171_mirror_refuted : exists m r s, valid F32 m = true /\ valid F32 (- m) = true /\ fx_floor F32 m = Ok r /\
  fx_ceil F32 (- m) = Ok s /\ s <> - r.
Proof. exact floor_ceil_refuted. Qed.
Theorem C171_trunc_order : forall c m n, wf c = true -> valid c m = true -> valid c n = true -> (qval (cf c) m <= qval (cf c) n)%Q ->
  exists r s, fx_trunc c m = Ok r /\ fx_trunc c n = Ok s /\ (qval (cf c) r <= qval (cf c) s)%Q.
Proof. exact trunc_order. Qed.
Theorem C171_floor_order : forall c m n, wf c = true -> valid c m = true -> valid c n = true -> floor_dom c m -> floor_dom c n ->
  (qval (cf c) m <= qval (cf c) n)%Q ->
  exists r s, fx_floor c m = Ok r /\ fx_floor c n = Ok s /\ (qval (cf c) r <= qval (cf c) s)%Q.
Proof. exact floor_order. Qed.
(** the ceiling keeps the order among the non-negative and among the negative values *)
Theorem C171_ceil_order : forall c m n, wf c = true -> valid c m = true -> valid c n = true -> ceil_dom c m -> ceil_dom c n ->
  (qval (cf c) m <= qval (cf c) n)%Q ->
  exists r s, fx_ceil c m = Ok r /\ fx_ceil c n = Ok s /\ (qval (cf c) r <= qval (cf c) s)%Q.
Proof. exact ceil_order. Qed.
Theorem C171_ceil_order_negative : forall c m n, wf c = true -> valid c m = true -> valid c n = true -> int_bit c ->
  (qval (cf c) m <= qval (cf c) n)%Q -> (qval (cf c) n < 0)%Q ->
  exists r s, fx_ceil c m = Ok r /\ fx_ceil c n = Ok s /\ (qval (cf c) r <= qval (cf c) s)%Q.
Proof. exact ceil_order_neg. Qed.
Theorem C171_round_order : forall c m n, wf c = true -> valid c m = true -> valid c n = true -> round_dom c m -> round_dom c n ->
  (qval (cf c) m <= qval (cf c) n)%Q ->
  exists r s, fx_round c m = Ok r /\ fx_round c n = Ok s /\ (qval (cf c) r <= qval (cf c) s)%Q.
Proof. exact round_order. Qed.
Theorem C171_trunc_twice : forall c m, wf c = true -> valid c m = true -> exists r, fx_trunc c m = Ok r /\ fx_trunc c r = Ok r.
Proof. exact trunc_idem. Qed.
Theorem C171_floor_twice : forall c m, wf c = true -> valid c m = true -> floor_dom c m ->
  exists r, fx_floor c m = Ok r /\ (floor_dom c r -> fx_floor c r = Ok r).
Proof. exact floor_idem. Qed.
Theorem C171_ceil_twice : forall c m, wf c = true -> valid c m = true -> ceil_dom c m ->
  exists r, fx_ceil c m = Ok r /\ fx_ceil c r = Ok r.
Proof. exact ceil_idem. Qed.
Theorem C171_round_twice : forall c m, wf c = true -> valid c m = true -> round_dom c m ->
  exists r, fx_round c m = Ok r /\ fx_round c r = Ok r.
Proof. exact round_idem. Qed.
Theorem C171_trunc_odd : forall c m, wf c = true -> valid c m = true -> valid c (- m) = true ->
  exists r, fx_trunc c m = Ok r /\ fx_trunc c (- m) = Ok (- r).
Proof. exact trunc_odd. Qed.
Theorem C171_round_odd : forall c m, wf c = true -> valid c m = true -> valid c (- m) = true -> round_dom c m -> round_dom c (- m) ->
  exists r, fx_round c m = Ok r /\ fx_round c (- m) = Ok (- r).
Proof. exact round_odd. Qed.
(** the floor of -x is minus the ceiling of x, for x not negative *)
Theorem C171_mirror : forall c m, wf c = true -> valid c m = true -> valid c (- m) = true -> ceil_dom c m -> floor_dom c (- m) ->
  exists r, fx_ceil c m = Ok r /\ fx_floor c (- m) = Ok (- r).
Proof. exact floor_ceil. Qed.
Example C171_case : wf F32 = true /\ ceil_dom F32 98305 /\ floor_dom F32 (-98305) /\ round_dom F32 (-98304) /\
  fx_ceil F32 98305 = Ok 131072 /\ fx_floor F32 (-98305) = Ok (-131072) /\ fx_round F32 (-98304) = Ok (-131072) /\ fx_ceil F32 (-32768) = Ok 65535.
Proof.
  split; [reflexivity|]. split.
  { split; [vm_compute; congruence|]. exists 2. split; [vm_compute; split; congruence|]. exists 131072. split; [vm_compute; split; congruence|reflexivity]. }
  split; [right; split; [intros _; vm_compute; congruence|vm_compute; split; congruence]|].
  split; [exists (-2); split; [split; intros; vm_compute in *; split; congruence|exists (-131072); split; [vm_compute; split; congruence|reflexivity]]|].
  vm_compute. repeat split.
Qed.
Print Assumptions C171_round_order.
Print Assumptions C171_ceil_order.
Print Assumptions C171_mirror.
Print Assumptions C171_floor_twice.
Print Assumptions C171_ceil_order_negative.
Print Assumptions C171_round_odd.

Open Scope R_scope.
(** ** C172: logarithms turn products into sums and quotients into differences *)
Theorem C172_log2_product : forall c a b, std c -> valid c a = true -> valid c b = true -> 0 < rval (cf c) a -> 0 < rval (cf c) b ->
  rval (cf c) a * rval (cf c) b < rval (cf c) (2 ^ (bits (ct c) - 1)) ->
  exists p, fx_mul c a b = Ok p /\ (0 < rval (cf c) p ->
  exists la lb lp, fx_log2 c a = Ok la /\ fx_log2 c b = Ok lb /\ fx_log2 c p = Ok lp /\
  - (4 * ulp (cf c) + 1.4427 * ulp (cf c) / rval (cf c) p) < rval (cf c) lp - (rval (cf c) la + rval (cf c) lb) < 8 * ulp (cf c)).
Proof. exact log2_product. Qed.
Theorem C172_log2_quotient : forall c a b, std c -> valid c a = true -> valid c b = true -> 0 < rval (cf c) a -> 0 < rval (cf c) b ->
  rval (cf c) a / rval (cf c) b < rval (cf c) (2 ^ (bits (ct c) - 1)) ->
  exists q, fx_div c a b = Ok q /\ (0 < rval (cf c) q ->
  exists la lb lq, fx_log2 c a = Ok la /\ fx_log2 c b = Ok lb /\ fx_log2 c q = Ok lq /\
  - (8 * ulp (cf c) + 1.4427 * ulp (cf c) / rval (cf c) q) < rval (cf c) lq - (rval (cf c) la - rval (cf c) lb) < 4 * ulp (cf c)).
Proof. exact log2_quotient. Qed.
Theorem C172_log_product32 : forall a b, valid F32 a = true -> valid F32 b = true -> 0 < rval 16 a -> 0 < rval 16 b -> rval 16 a * rval 16 b < 32768 ->
  exists p, fx_mul F32 a b = Ok p /\ (0 < rval 16 p ->
  exists la lb lp, fx_log F32 a = Ok la /\ fx_log F32 b = Ok lb /\ fx_log F32 p = Ok lp /\
  Rabs (rval 16 lp - (rval 16 la + rval 16 lb)) <= 24 * ulp 16 + ulp 16 / rval 16 p).
Proof. exact ln_product32. Qed.
Theorem C172_log_product64 : forall a b, valid F64 a = true -> valid F64 b = true -> 0 < rval 32 a -> 0 < rval 32 b -> rval 32 a * rval 32 b < 2147483648 ->
  exists p, fx_mul F64 a b = Ok p /\ (0 < rval 32 p ->
  exists la lb lp, fx_log F64 a = Ok la /\ fx_log F64 b = Ok lb /\ fx_log F64 p = Ok lp /\
  Rabs (rval 32 lp - (rval 32 la + rval 32 lb)) <= 45 * ulp 32 + ulp 32 / rval 32 p).
Proof. exact ln_product64. Qed.
Theorem C172_log_quotient32 : forall a b, valid F32 a = true -> valid F32 b = true -> 0 < rval 16 a -> 0 < rval 16 b -> rval 16 a / rval 16 b < 32768 ->
  exists p, fx_div F32 a b = Ok p /\ (0 < rval 16 p ->
  exists la lb lp, fx_log F32 a = Ok la /\ fx_log F32 b = Ok lb /\ fx_log F32 p = Ok lp /\
  Rabs (rval 16 lp - (rval 16 la - rval 16 lb)) <= 24 * ulp 16 + ulp 16 / rval 16 p).
Proof. exact ln_quotient32. Qed.
Theorem C172_log_quotient64 : forall a b, valid F64 a = true -> valid F64 b = true -> 0 < rval 32 a -> 0 < rval 32 b -> rval 32 a / rval 32 b < 2147483648 ->
  exists p, fx_div F64 a b = Ok p /\ (0 < rval 32 p ->
  exists la lb lp, fx_log F64 a = Ok la /\ fx_log F64 b = Ok lb /\ fx_log F64 p = Ok lp /\
  Rabs (rval 32 lp - (rval 32 la - rval 32 lb)) <= 45 * ulp 32 + ulp 32 / rval 32 p).
Proof. exact ln_quotient64. Qed.
Theorem C172_log10_product : forall c a b, std c -> valid c a = true -> valid c b = true -> 0 < rval (cf c) a -> 0 < rval (cf c) b ->
  rval (cf c) a * rval (cf c) b < rval (cf c) (2 ^ (bits (ct c) - 1)) ->
  exists p, fx_mul c a b = Ok p /\ (0 < rval (cf c) p ->
  exists la lb lp, fx_log10 c a = Ok la /\ fx_log10 c b = Ok lb /\ fx_log10 c p = Ok lp /\
  Rabs (rval (cf c) lp - (rval (cf c) la + rval (cf c) lb)) <= 12 * ulp (cf c) + 0.4343 * ulp (cf c) / rval (cf c) p).
Proof. exact log10_product. Qed.
Theorem C172_log10_quotient : forall c a b, std c -> valid c a = true -> valid c b = true -> 0 < rval (cf c) a -> 0 < rval (cf c) b ->
  rval (cf c) a / rval (cf c) b < rval (cf c) (2 ^ (bits (ct c) - 1)) ->
  exists p, fx_div c a b = Ok p /\ (0 < rval (cf c) p ->
  exists la lb lp, fx_log10 c a = Ok la /\ fx_log10 c b = Ok lb /\ fx_log10 c p = Ok lp /\
  Rabs (rval (cf c) lp - (rval (cf c) la - rval (cf c) lb)) <= 12 * ulp (cf c) + 0.4343 * ulp (cf c) / rval (cf c) p).
Proof. exact log10_quotient. Qed.
(** 3 * 5 = 15 *)
Example C172_case : std F32 /\ rval 16 196608 * rval 16 327680 < 32768 /\ fx_mul F32 196608 327680 = Ok 983040%Z /\
  exists la lb lp, fx_log F32 196608 = Ok la /\ fx_log F32 327680 = Ok lb /\ fx_log F32 983040 = Ok lp /\ (Z.abs (lp - (la + lb)) <= 2)%Z.
Proof.
  split; [left; reflexivity|]. split; [unfold rval; change (IZR (2 ^ 16)) with 65536; lra|]. split; [reflexivity|].
  do 3 eexists. split; [vm_compute; reflexivity|]. split; [vm_compute; reflexivity|]. split; [vm_compute; reflexivity|]. vm_compute. discriminate.
Qed.
Print Assumptions C172_log2_product.

(** ** C173: inverse functions.  False near the ends of the domains, where asin and atan go astray (C51, C53) ... *)
Theorem C173_sin_asin_refuted : exists m a s, 0 < rval 16 m < 1 /\ fx_asin F32 m = Ok a /\ fx_sin F32 a = Ok s /\ rval 16 s < - 0.27.
Proof. exact sin_asin_refuted. Qed.
Theorem C173_asin_sin_refuted : exists m s a, 0 < rval 16 m < 1.1 /\ fx_sin F32 m = Ok s /\ fx_asin F32 s = Ok a /\ rval 16 a < 0.
Proof. exact asin_sin_refuted. Qed.
Theorem C173_acos_cos_refuted : exists m s a, 0.6 < rval 16 m < 1 /\ fx_cos F32 m = Ok s /\ fx_acos F32 s = Ok a /\ 0.1 < rval 16 a - rval 16 m.
Proof. exact acos_cos_refuted. Qed.
Theorem C173_tan_atan_refuted : exists m a t, rval 16 m = 2 /\ fx_atan F32 m = Ok a /\ fx_tan F32 a = Ok t /\ rval 16 t < -10.
Proof. exact tan_atan_refuted. Qed.
Theorem C173_atan_tan_refuted : exists m t a, 0 < rval 16 m < 1.1 /\ fx_tan F32 m = Ok t /\ fx_atan F32 t = Ok a /\ rval 16 a < 0.
Proof. exact atan_tan_refuted. Qed.
(** ... true in the middle *)
Theorem C173_sin_asin32 : forall m, Rabs (rval 16 m) <= 0.7 -> exists a s, fx_asin F32 m = Ok a /\ fx_sin F32 a = Ok s /\
  Rabs (rval 16 s - rval 16 m) <= 7.5e-4.
Proof. exact sin_asin32. Qed.
Theorem C173_sin_asin64 : forall m, Rabs (rval 32 m) <= 0.7 -> exists a s, fx_asin F64 m = Ok a /\ fx_sin F64 a = Ok s /\
  Rabs (rval 32 s - rval 32 m) <= 6.61e-4.
Proof. exact sin_asin64. Qed.
Theorem C173_asin_sin32 : forall m, Rabs (rval 16 m) <= 0.77 -> exists s a, fx_sin F32 m = Ok s /\ fx_asin F32 s = Ok a /\
  Rabs (rval 16 a - rval 16 m) <= 8.5e-4.
Proof. exact asin_sin32. Qed.
Theorem C173_asin_sin64 : forall m, Rabs (rval 32 m) <= 0.77 -> exists s a, fx_sin F64 m = Ok s /\ fx_asin F64 s = Ok a /\
  Rabs (rval 32 a - rval 32 m) <= 7.9e-4.
Proof. exact asin_sin64. Qed.
Theorem C173_cos_acos32 : forall m, Rabs (rval 16 m) <= 0.7 -> exists a s, fx_acos F32 m = Ok a /\ fx_cos F32 a = Ok s /\
  Rabs (rval 16 s - rval 16 m) <= 8e-4.
Proof. exact cos_acos32. Qed.
Theorem C173_cos_acos64 : forall m, Rabs (rval 32 m) <= 0.7 -> exists a s, fx_acos F64 m = Ok a /\ fx_cos F64 a = Ok s /\
  Rabs (rval 32 s - rval 32 m) <= 6.81e-4.
Proof. exact cos_acos64. Qed.
Theorem C173_acos_cos32 : forall m, 0.81 <= rval 16 m <= 2.33 -> exists s a, fx_cos F32 m = Ok s /\ fx_acos F32 s = Ok a /\
  Rabs (rval 16 a - rval 16 m) <= 9.2e-4.
Proof. exact acos_cos32. Qed.
Theorem C173_acos_cos64 : forall m, 0.81 <= rval 32 m <= 2.33 -> exists s a, fx_cos F64 m = Ok s /\ fx_acos F64 s = Ok a /\
  Rabs (rval 32 a - rval 32 m) <= 8.2e-4.
Proof. exact acos_cos64. Qed.
Theorem C173_tan_atan32 : forall m, Rabs (rval 16 m) <= 1 -> exists a t, fx_atan F32 m = Ok a /\ fx_tan F32 a = Ok t /\
  Rabs (rval 16 t - rval 16 m) <= 1.75e-3.
Proof. exact tan_atan32. Qed.
Theorem C173_tan_atan64 : forall m, 4.3e-4 <= Rabs (rval 32 m) <= 1 -> exists a t, fx_atan F64 m = Ok a /\ fx_tan F64 a = Ok t /\
  Rabs (rval 32 t - rval 32 m) <= 5.6e-4.
Proof. exact tan_atan64. Qed.
Theorem C173_atan_tan32 : forall m, Rabs (rval 16 m) <= 0.78 -> exists t a, fx_tan F32 m = Ok t /\ fx_atan F32 t = Ok a /\
  Rabs (rval 16 a - rval 16 m) <= 1.34e-3.
Proof. exact atan_tan32. Qed.
Theorem C173_atan_tan64 : forall m, Rabs (rval 32 m) <= 0.78 -> (0 <= m \/ 644245 <= Z.abs m)%Z ->
  exists t a, fx_tan F64 m = Ok t /\ fx_atan F64 t = Ok a /\ Rabs (rval 32 a - rval 32 m) <= 2.84e-4.
Proof. exact atan_tan64. Qed.
(** one half, there and back *)
Example C173_case : Rabs (rval 16 32768) <= 0.7 /\ fx_asin F32 32768 = Ok 34309%Z /\ fx_sin F32 34309 = Ok 32762%Z /\
  fx_tan F32 32768 = Ok 35799%Z /\ fx_atan F32 35799 = Ok 32762%Z.
Proof.
  split; [unfold rval; change (IZR (2 ^ 16)) with 65536; rewrite Rabs_pos_eq; lra|]. vm_compute. repeat split.
Qed.
Print Assumptions C173_tan_atan64.

(** ** C174: sin(a + b) = sin a cos b + cos a sin b and cos(a + b) = cos a cos b - sin a sin b, computed *)
Theorem C174_sum32 : forall a b, valid F32 a = true -> valid F32 b = true -> valid F32 (a + b) = true ->
  a <> MIN32 -> b <> MIN32 -> (a + b)%Z <> MIN32 ->
  exists t st ct sa ca sb cb p q z p' q' w, fx_add F32 a b = Ok t /\ fx_sin F32 t = Ok st /\ fx_cos F32 t = Ok ct /\
  fx_sin F32 a = Ok sa /\ fx_cos F32 a = Ok ca /\ fx_sin F32 b = Ok sb /\ fx_cos F32 b = Ok cb /\
  fx_mul F32 sa cb = Ok p /\ fx_mul F32 ca sb = Ok q /\ fx_add F32 p q = Ok z /\
  fx_mul F32 ca cb = Ok p' /\ fx_mul F32 sa sb = Ok q' /\ fx_sub F32 p' q' = Ok w /\
  Rabs (rval 16 st - rval 16 z) <= (72 + 0.35 * (Rabs (rval 16 a) + Rabs (rval 16 b))) * ulp 16 /\
  Rabs (rval 16 ct - rval 16 w) <= (73 + 0.35 * (Rabs (rval 16 a) + Rabs (rval 16 b))) * ulp 16.
Proof. exact add32. Qed.
Theorem C174_sum64 : forall a b, valid F64 a = true -> valid F64 b = true -> valid F64 (a + b) = true ->
  a <> MIN64 -> b <> MIN64 -> (a + b)%Z <> MIN64 ->
  exists t st ct sa ca sb cb p q z p' q' w, fx_add F64 a b = Ok t /\ fx_sin F64 t = Ok st /\ fx_cos F64 t = Ok ct /\
  fx_sin F64 a = Ok sa /\ fx_cos F64 a = Ok ca /\ fx_sin F64 b = Ok sb /\ fx_cos F64 b = Ok cb /\
  fx_mul F64 sa cb = Ok p /\ fx_mul F64 ca sb = Ok q /\ fx_add F64 p q = Ok z /\
  fx_mul F64 ca cb = Ok p' /\ fx_mul F64 sa sb = Ok q' /\ fx_sub F64 p' q' = Ok w /\
  Rabs (rval 32 st - rval 32 z) <= 1.22e-3 + 0.018 * (Rabs (rval 32 a) + Rabs (rval 32 b)) * ulp 32 /\
  Rabs (rval 32 ct - rval 32 w) <= 1.23e-3 + 0.018 * (Rabs (rval 32 a) + Rabs (rval 32 b)) * ulp 32.
Proof. exact add64. Qed.
(** sin 3 = sin 1 cos 2 + cos 1 sin 2 *)
Example C174_case : valid F32 65536 = true /\ valid F32 131072 = true /\ 65536%Z <> MIN32 /\
  exists sa ca sb cb p q z st, fx_sin F32 65536 = Ok sa /\ fx_cos F32 65536 = Ok ca /\ fx_sin F32 131072 = Ok sb /\ fx_cos F32 131072 = Ok cb /\
  fx_mul F32 sa cb = Ok p /\ fx_mul F32 ca sb = Ok q /\ fx_add F32 p q = Ok z /\ fx_sin F32 196608 = Ok st /\ (Z.abs (st - z) <= 5)%Z.
Proof.
  split; [reflexivity|]. split; [reflexivity|]. split; [discriminate|].
  do 8 eexists. do 8 (split; [vm_compute; reflexivity|]). vm_compute. discriminate.
Qed.
Print Assumptions C174_sum64.

(** ** C175: the CORDIC functions give what fx_sin and fx_cos give, for angles not negative *)
Theorem C175_negative_refuted : exists m a b, valid F32 m = true /\ fx_sin F32 m = Ok a /\ cordic_sine32 m = Ok b /\ 0.5 < Rabs (rval 16 b - rval 16 a).
Proof. exact agree_refuted. Qed.
Theorem C175_sine32 : forall m, valid F32 m = true -> (0 <= m)%Z -> exists a b, fx_sin F32 m = Ok a /\ cordic_sine32 m = Ok b /\
  Rabs (rval 16 b - rval 16 a) <= (93 + 0.283 * rval 16 m) * ulp 16.
Proof. exact agree_sin32. Qed.
Theorem C175_cosine32 : forall m, valid F32 m = true -> (0 <= m)%Z -> exists a b, fx_cos F32 m = Ok a /\ cordic_cosine32 m = Ok b /\
  Rabs (rval 16 b - rval 16 a) <= (95 + 0.283 * rval 16 m) * ulp 16.
Proof. exact agree_cos32. Qed.
Theorem C175_sine64 : forall m, valid F64 m = true -> (0 <= m)%Z -> exists a b, fx_sin F64 m = Ok a /\ cordic_sine64 m = Ok b /\
  Rabs (rval 32 b - rval 32 a) <= 3.73e-6 + 0.175 * rval 32 m * ulp 32.
Proof. exact agree_sin64. Qed.
Theorem C175_cosine64 : forall m, valid F64 m = true -> (0 <= m)%Z -> exists a b, fx_cos F64 m = Ok a /\ cordic_cosine64 m = Ok b /\
  Rabs (rval 32 b - rval 32 a) <= 3.201e-4 + 0.175 * rval 32 m * ulp 32.
Proof. exact agree_cos64. Qed.
Example C175_case : valid F32 65536 = true /\ fx_sin F32 65536 = Ok 55147%Z /\ cordic_sine32 65536 = Ok 55150%Z.
Proof. split; [reflexivity|]. split; [vm_compute; reflexivity|]. apply case86. Qed.
Print Assumptions C175_sine64.
