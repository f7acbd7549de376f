(** Property theorems C09-C24: arithmetic, comparison, inspection.  Statements only; proofs are in
    ArithProofs.v, ArithProofs2.v, InspectProofs.v, RefuteArith.v. *)
From Coq Require Import ZArith Bool QArith Qabs.
From Verif Require Import Base Fixed Spec ArithProofs ArithProofs2 InspectProofs InspectProofs2 RefuteArith.
Open Scope Z_scope.

(** C09; [wide_signed c] says that the store type is a signed type of at least 32 bits *)
Theorem C09_add : forall c x y, wf c = true -> valid c x = true -> valid c y = true ->
  (representable (bits (ct c)) (sgn (ct c)) (cf c) (qval (cf c) x + qval (cf c) y) ->
     exists m, fx_add c x y = Ok m /\ valid c m = true /\ (qval (cf c) m == qval (cf c) x + qval (cf c) y)%Q) /\
  (~ representable (bits (ct c)) (sgn (ct c)) (cf c) (qval (cf c) x + qval (cf c) y) ->
     if wide_signed c then fx_add c x y = UB
     else exists m, fx_add c x y = Ok m /\ valid c m = true /\ cong (bits (ct c)) m (x + y)).
Proof. exact add_thm. Qed.
Theorem C09_sub : forall c x y, wf c = true -> valid c x = true -> valid c y = true ->
  (representable (bits (ct c)) (sgn (ct c)) (cf c) (qval (cf c) x - qval (cf c) y) ->
     exists m, fx_sub c x y = Ok m /\ valid c m = true /\ (qval (cf c) m == qval (cf c) x - qval (cf c) y)%Q) /\
  (~ representable (bits (ct c)) (sgn (ct c)) (cf c) (qval (cf c) x - qval (cf c) y) ->
     if wide_signed c then fx_sub c x y = UB
     else exists m, fx_sub c x y = Ok m /\ valid c m = true /\ cong (bits (ct c)) m (x - y)).
Proof. exact sub_thm. Qed.
Theorem C09_neg : forall c x, wf c = true -> valid c x = true ->
  (representable (bits (ct c)) (sgn (ct c)) (cf c) (- qval (cf c) x) ->
     exists m, fx_neg c x = Ok m /\ valid c m = true /\ (qval (cf c) m == - qval (cf c) x)%Q) /\
  (~ representable (bits (ct c)) (sgn (ct c)) (cf c) (- qval (cf c) x) ->
     if wide_signed c then fx_neg c x = UB
     else exists m, fx_neg c x = Ok m /\ valid c m = true /\ cong (bits (ct c)) m (- x)).
Proof. exact neg_thm. Qed.
Example C09_case : fx_add F32 98304 (-32769) = Ok 65535 /\ fx_add F32 2147483647 1 = UB /\
  fx_add U32 4294967295 2 = Ok 1 /\ fx_neg F32 (-2147483648) = UB.
Proof. repeat split. Qed.

(** C10 *)
Theorem C10_mixed : forall c t x n, wf c = true ->
  32 <= bits (ct c) \/ representable (bits (ct c)) (sgn (ct c)) (cf c) (inject_Z n) ->
  fx_add_int c t x n = (let* v := fx_of_int c n in fx_add c x v) /\
  int_add_fx c t n x = (let* v := fx_of_int c n in fx_add c x v) /\
  fx_sub_int c t x n = (let* v := fx_of_int c n in fx_sub c x v) /\
  int_sub_fx c t n x = (let* v := fx_of_int c n in fx_sub c v x).
Proof. exact mixed_thm. Qed.
(** without the hypothesis (16-bit store, integer out of range) the two differ *)
Theorem C10_mixed_narrow_refuted :
  exists x n, wf U16_15 = true /\ valid U16_15 x = true /\
    fx_add_int U16_15 uint16 x n = UB /\ exists m, (let* v := fx_of_int U16_15 n in fx_add U16_15 x v) = Ok m.
Proof. exact mixed_refuted. Qed.
Example C10_case : fx_add_int F32 int32 98304 2 = Ok 229376 /\ int_sub_fx F32 int32 2 98304 = Ok 32768.
Proof. repeat split. Qed.

(** C11 *)
Theorem C11_mul_floor : forall c x y r, wf c = true -> cr c = false -> valid c x = true -> valid c y = true ->
  is_floor (cf c) (qval (cf c) x * qval (cf c) y) r ->
  exists m, fx_mul c x y = Ok m /\ valid c m = true /\ cong (bits (ct c)) m r
            /\ (fits (bits (ct c)) (sgn (ct c)) r -> m = r).
Proof. exact mul_thm. Qed.
Example C11_case : is_floor 16 (qval 16 (-1) * qval 16 32768) (-1) /\ fx_mul F32 (-1) 32768 = Ok (-1)
  /\ fx_mul F32 2147483647 2147483647 = Ok (-65536).
Proof. repeat split; vm_compute; congruence. Qed.

(** C12 *)
Theorem C12_div_trunc : forall c x y r, wf c = true -> cr c = false -> valid c x = true -> valid c y = true -> y <> 0 ->
  is_trunc (cf c) (qval (cf c) x / qval (cf c) y) r ->
  exists m, fx_div c x y = Ok m /\ valid c m = true /\ cong (bits (ct c)) m r
            /\ (fits (bits (ct c)) (sgn (ct c)) r -> m = r).
Proof. exact div_thm. Qed.
Theorem C12_div_ub_iff_zero : forall c x y, wf c = true -> cr c = false -> valid c x = true -> valid c y = true ->
  (fx_div c x y = UB <-> y = 0).
Proof. exact div_ub_iff. Qed.
Example C12_case : is_trunc 16 (qval 16 (-65536) / qval 16 196608) (-21845) /\ fx_div F32 (-65536) 196608 = Ok (-21845).
Proof. repeat split; intros; vm_compute in *; congruence. Qed.

(** C13: false ... *)
Theorem C13_mul_rounding_refuted :
  exists x y m, wf F32r = true /\ valid F32r x = true /\ valid F32r y = true /\
    fx_mul F32r x y = Ok m /\ ~ is_nearest (cf F32r) (qval (cf F32r) x * qval (cf F32r) y) m.
Proof. exact mul_round_refuted. Qed.
Theorem C13_div_rounding_refuted :
  exists x y m, wf F32r = true /\ valid F32r x = true /\ valid F32r y = true /\ y <> 0 /\
    fx_div F32r x y = Ok m /\ ~ is_nearest (cf F32r) (qval (cf F32r) x / qval (cf F32r) y) m.
Proof. exact div_round_refuted. Qed.
(** ... the product always comes out as (about) twice the exact product. *)
Theorem C13_mul_rounding_is_doubled : forall c x y, wf c = true -> cr c = true -> valid c x = true -> valid c y = true ->
  exists m r, fx_mul c x y = Ok m /\ valid c m = true /\ cong (bits (ct c)) m r /\
    (Qabs (qval (cf c) r - 2 * (qval (cf c) x * qval (cf c) y)) <= qval (cf c) 1)%Q.
Proof. exact mul_round_thm. Qed.
Example C13_case : fx_mul F32r 98304 65536 = Ok 196608.
Proof. reflexivity. Qed.

(** C14 *)
Theorem C14_mul_int : forall c t x n, wf c = true -> ity_ok t = true -> valid c x = true -> in_range t n = true ->
  representable (bits (ct c)) (sgn (ct c)) (cf c) (inject_Z n * qval (cf c) x) ->
  exists m, fx_mul_int c t x n = Ok m /\ int_mul_fx c t n x = Ok m /\ valid c m = true
            /\ (qval (cf c) m == inject_Z n * qval (cf c) x)%Q.
Proof. exact mul_int_thm. Qed.
Theorem C14_div_int : forall c t x n r, wf c = true -> ity_ok t = true -> valid c x = true -> in_range t n = true ->
  n <> 0 -> sgn (uac (ct c) t) = true \/ (0 <= x /\ 0 <= n) ->
  is_trunc (cf c) (qval (cf c) x / inject_Z n) r -> fits (bits (ct c)) (sgn (ct c)) r ->
  fx_div_int c t x n = Ok r.
Proof. exact div_int_thm. Qed.
(** with an unsigned divisor as wide as the store a negative dividend gives a huge positive result *)
Theorem C14_div_int_unsigned_refuted :
  exists x n m, wf F32 = true /\ valid F32 x = true /\ in_range uint32 n = true /\ n <> 0 /\
    fx_div_int F32 uint32 x n = Ok m /\ (inject_Z 32767 <= qval (cf F32) m)%Q /\
    (qval (cf F32) x / inject_Z n == - (1 # 2))%Q.
Proof. exact div_int_refuted. Qed.
Example C14_case : fx_mul_int F32 uint64 (-65537) 3 = Ok (-196611) /\ fx_div_int F32 int64 (-65537) 3 = Ok (-21845)
  /\ is_trunc 16 (qval 16 (-65537) / inject_Z 3) (-21845) /\ sgn (uac (ct F32) int64) = true.
Proof. repeat split; intros; vm_compute in *; congruence. Qed.

(** C15 *)
Theorem C15_rem_law : forall c x y, wf c = true -> valid c x = true -> valid c y = true -> y <> 0 ->
  ~ (wide_signed c = true /\ x = - 2 ^ (bits (ct c) - 1) /\ y = -1) ->
  exists m, fx_rem c x y = Ok m /\ valid c m = true /\
    (exists k, (qval (cf c) x == inject_Z k * qval (cf c) y + qval (cf c) m)%Q) /\
    (Qabs (qval (cf c) m) < Qabs (qval (cf c) y))%Q /\
    ((0 <= qval (cf c) x)%Q -> (0 <= qval (cf c) m)%Q) /\
    ((qval (cf c) x <= 0)%Q -> (qval (cf c) m <= 0)%Q).
Proof. exact rem_thm. Qed.
Theorem C15_rem_ub_iff : forall c x y, wf c = true -> valid c x = true -> valid c y = true ->
  (fx_rem c x y = UB <->
   y = 0 \/ (wide_signed c = true /\ x = - 2 ^ (bits (ct c) - 1) /\ y = -1)).
Proof. exact rem_ub_iff. Qed.
Example C15_case : fx_rem F32 (-98304) 65536 = Ok (-32768) /\ fx_rem F32 (-2147483648) (-1) = UB.
Proof. split; reflexivity. Qed.

(** C16 *)
Theorem C16_divide : forall c x y, wf c = true -> valid c x = true -> valid c y = true ->
  (fx_divide c x y = Throw divide_by_zero <-> y = 0) /\
  (fx_divide_by c x y = Throw divide_by_zero <-> y = 0) /\
  (y <> 0 -> fx_divide c x y = fx_div c x y /\ fx_divide_by c x y = fx_div c x y).
Proof. exact divide_thm. Qed.
Theorem C16_divide_int : forall c t x n, wf c = true -> ity_ok t = true -> valid c x = true -> in_range t n = true ->
  (fx_divide_int c t x n = Throw divide_by_zero <-> n = 0) /\
  (fx_divide_by_int c t x n = Throw divide_by_zero <-> n = 0) /\
  (n <> 0 -> fx_divide_int c t x n = fx_div_int c t x n /\ fx_divide_by_int c t x n = fx_div_int c t x n).
Proof. exact divide_int_thm. Qed.
Example C16_case : fx_divide F32 65536 0 = Throw divide_by_zero /\ fx_divide F32 65536 (-131072) = Ok (-32768).
Proof. split; reflexivity. Qed.

(** C17 *)
Theorem C17_incdec : forall c x, wf c = true -> (wide_signed c = true -> cf c <= bits (ct c) - 2) -> valid c x = true ->
  (representable (bits (ct c)) (sgn (ct c)) (cf c) (qval (cf c) x + 1) ->
   exists m, (qval (cf c) m == qval (cf c) x + 1)%Q /\ valid c m = true /\
     fx_preinc c x = Ok (m, m) /\ fx_postinc c x = Ok (x, m)) /\
  (representable (bits (ct c)) (sgn (ct c)) (cf c) (qval (cf c) x - 1) ->
   exists m, (qval (cf c) m == qval (cf c) x - 1)%Q /\ valid c m = true /\
     fx_predec c x = Ok (m, m) /\ fx_postdec c x = Ok (x, m)).
Proof. exact incdec_thm. Qed.
(** for the Q0.31 instantiation (accepted by the concept) ++ is undefined even from -0.5 *)
Theorem C17_inc_no_integer_bits_refuted :
  exists x, wf Q31 = true /\ valid Q31 x = true /\
    representable (bits (ct Q31)) (sgn (ct Q31)) (cf Q31) (qval (cf Q31) x + 1) /\ fx_preinc Q31 x = UB.
Proof. exact inc_refuted. Qed.
Example C17_case : fx_postinc F32 (-98304) = Ok (-98304, -32768) /\ fx_preinc F32 (-98304) = Ok (-32768, -32768)
  /\ fx_predec F64 0 = Ok (-4294967296, -4294967296).
Proof. repeat split. Qed.

(** C18 *)
Theorem C18_compound : forall c x y,
  fx_add_assign c x y = fx_add c x y /\ fx_sub_assign c x y = fx_sub c x y /\
  fx_mul_assign c x y = fx_mul c x y /\ fx_div_assign c x y = fx_div c x y /\
  fx_rem_assign c x y = fx_rem c x y.
Proof. exact compound_thm. Qed.
Example C18_case : fx_mul_assign F32 (-98304) 32768 = Ok (-49152) /\ fx_mul F32 (-98304) 32768 = Ok (-49152).
Proof. split; reflexivity. Qed.

(** C19 *)
Theorem C19_add_laws : forall c x y z, wf c = true -> valid c x = true -> valid c y = true -> valid c z = true ->
  fx_add c x y = fx_add c y x /\
  fx_add c x 0 = Ok x /\
  (forall a b, fx_add c x y = Ok a -> fx_add c y z = Ok b -> fx_add c a z = fx_add c x b) /\
  (forall n, fx_neg c x = Ok n -> fx_add c x n = Ok 0) /\
  (forall n, fx_neg c y = Ok n -> fx_sub c x y = fx_add c x n).
Proof. exact add_laws. Qed.
Theorem C19_mul_comm_zero : forall c x y, wf c = true -> cr c = false -> valid c x = true -> valid c y = true ->
  fx_mul c x y = fx_mul c y x /\ fx_mul c x 0 = Ok 0.
Proof. exact mul_comm_zero. Qed.
Theorem C19_one_laws : forall c x one, wf c = true -> cr c = false -> (sgn (ct c) = true -> cf c <= bits (ct c) - 2) ->
  valid c x = true -> fx_of_int c 1 = Ok one ->
  fx_mul c x one = Ok x /\ fx_div c x one = Ok x /\ (x <> 0 -> fx_div c x x = Ok one).
Proof. exact one_laws. Qed.
(** distributivity up to one ulp *)
Theorem C19_distributive : forall c x y z s p q pq r, wf c = true -> cr c = false ->
  valid c x = true -> valid c y = true -> valid c z = true ->
  s = y + z -> valid c s = true ->
  is_floor (cf c) (qval (cf c) x * qval (cf c) y) p -> valid c p = true ->
  is_floor (cf c) (qval (cf c) x * qval (cf c) z) q -> valid c q = true ->
  is_floor (cf c) (qval (cf c) x * qval (cf c) s) r -> valid c r = true ->
  pq = p + q -> valid c pq = true ->
  fx_add c y z = Ok s /\ fx_mul c x y = Ok p /\ fx_mul c x z = Ok q /\
  fx_mul c x s = Ok r /\ fx_add c p q = Ok pq /\ (r = pq \/ r = pq + 1).
Proof. exact distrib. Qed.
(** associativity of * up to (|x| + |z| + 1) ulps *)
Theorem C19_mul_assoc : forall c x y z p q l r, wf c = true -> cr c = false ->
  valid c x = true -> valid c y = true -> valid c z = true ->
  is_floor (cf c) (qval (cf c) x * qval (cf c) y) p -> valid c p = true ->
  is_floor (cf c) (qval (cf c) y * qval (cf c) z) q -> valid c q = true ->
  is_floor (cf c) (qval (cf c) p * qval (cf c) z) l -> valid c l = true ->
  is_floor (cf c) (qval (cf c) x * qval (cf c) q) r -> valid c r = true ->
  fx_mul c x y = Ok p /\ fx_mul c p z = Ok l /\ fx_mul c y z = Ok q /\ fx_mul c x q = Ok r /\
  (Qabs (qval (cf c) l - qval (cf c) r) <=
     qval (cf c) 1 * (Qabs (qval (cf c) x) + Qabs (qval (cf c) z) + 1))%Q.
Proof. exact mul_assoc_err. Qed.
Example C19_case : fx_mul F32 (-1) 3 = Ok (-1) /\ fx_mul F32 (-1) 5 = Ok (-1) /\ fx_mul F32 (-1) 8 = Ok (-1)
  /\ is_floor 16 (qval 16 (-1) * qval 16 8) (-1) /\ valid F32 8 = true.
Proof. repeat split; vm_compute; congruence. Qed.

(** C20 *)
Theorem C20_cmp : forall c x y, wf c = true -> valid c x = true -> valid c y = true ->
  fx_cmp c x y = Qcompare (qval (cf c) x) (qval (cf c) y).
Proof. exact cmp_thm. Qed.
Theorem C20_order : forall c x y, wf c = true -> valid c x = true -> valid c y = true ->
  (fx_eq c x y = true <-> (qval (cf c) x == qval (cf c) y)%Q) /\
  (fx_lt c x y = true <-> (qval (cf c) x < qval (cf c) y)%Q) /\
  (fx_le c x y = true <-> (qval (cf c) x <= qval (cf c) y)%Q) /\
  (fx_gt c x y = true <-> (qval (cf c) y < qval (cf c) x)%Q) /\
  (fx_ge c x y = true <-> (qval (cf c) y <= qval (cf c) x)%Q).
Proof. exact order_thm. Qed.
Theorem C20_add_monotone : forall c x y z a b, wf c = true -> wide_signed c = true ->
  valid c x = true -> valid c y = true -> valid c z = true ->
  fx_le c x y = true -> fx_add c x z = Ok a -> fx_add c y z = Ok b -> fx_le c a b = true.
Proof. exact add_mono. Qed.
Theorem C20_hash_respects_eq : forall c std_hash x y, wf c = true -> valid c x = true -> valid c y = true ->
  fx_eq c x y = true -> fx_hash std_hash x = fx_hash std_hash y.
Proof. exact hash_eq. Qed.
Example C20_case : fx_lt F32 (-2147483648) 1 = true /\ fx_lt U32 4294967295 1 = false.
Proof. split; reflexivity. Qed.

(** C21, signed comparison type and no overflow of the difference *)
Theorem C21_nearly : forall c x y e, wf c = true -> sgn (promote (ct c)) = true ->
  valid c x = true -> valid c y = true -> nearly_compare_epsilon c = Ok e ->
  fits (bits (promote (ct c))) true (x - y) ->
  let D := (qval (cf c) x - qval (cf c) y)%Q in
  let E := qval (cf c) e in
  exists beq bne bgt blt bge ble,
    nearly_eq c x y = Ok beq /\ (beq = true <-> (Qabs D <= E)%Q) /\
    nearly_ne c x y = Ok bne /\ (bne = true <-> ~ (Qabs D <= E)%Q) /\
    nearly_gt c x y = Ok bgt /\ (bgt = true <-> (E < D)%Q) /\
    nearly_lt c x y = Ok blt /\ (blt = true <-> (D < - E)%Q) /\
    nearly_gt_eq c x y = Ok bge /\ (bge = true <-> ~ (D < - E)%Q) /\
    nearly_lt_eq c x y = Ok ble /\ (ble = true <-> ~ (E < D)%Q).
Proof. exact nearly_thm. Qed.
(** the tolerance: 5/65536 truncated (or rounded) to the resolution of the type *)
Theorem C21_epsilon : forall c, wf c = true ->
  exists e, nearly_compare_epsilon c = Ok e /\ valid c e = true /\ 0 <= e /\
    (cr c = false -> is_trunc (cf c) (5 # 65536) e) /\
    (cr c = true -> is_nearest_away (cf c) (5 # 65536) e).
Proof. exact eps_raw. Qed.
(** reflexive, symmetric, and exactly one of nearly_lt / nearly_eq / nearly_gt *)
Theorem C21_nearly_laws : forall c x y, wf c = true -> sgn (promote (ct c)) = true ->
  valid c x = true -> valid c y = true ->
  fits (bits (promote (ct c))) true (x - y) -> fits (bits (promote (ct c))) true (y - x) ->
  nearly_eq c x x = Ok true /\ nearly_eq c x y = nearly_eq c y x /\
  exists l e g, nearly_lt c x y = Ok l /\ nearly_eq c x y = Ok e /\ nearly_gt c x y = Ok g /\
    nearly_ne c x y = Ok (negb e) /\ nearly_gt c y x = Ok l /\
    ((l = true /\ e = false /\ g = false) \/ (l = false /\ e = true /\ g = false) \/
     (l = false /\ e = false /\ g = true)).
Proof. exact nearly_laws. Qed.
Theorem C21_unsigned_refuted :
  exists x e, wf U32 = true /\ valid U32 x = true /\ nearly_compare_epsilon U32 = Ok e /\ 0 < e /\
    nearly_eq U32 x x = Ok false /\ nearly_lt U32 x x = Ok true.
Proof. exact nearly_refuted_unsigned. Qed.
Theorem C21_overflow_refuted :
  exists x y, wf F32 = true /\ valid F32 x = true /\ valid F32 y = true /\ nearly_eq F32 x y = UB.
Proof. exact nearly_refuted_overflow. Qed.
Example C21_case : nearly_compare_epsilon F32 = Ok 5 /\ nearly_eq F32 65536 65541 = Ok true /\
  nearly_eq F32 65536 65542 = Ok false /\ nearly_lt F32 65536 65542 = Ok true.
Proof. repeat split. Qed.

(** C22: true for non-negative values ... *)
Theorem C22_parts_nonnegative : forall c m, wf c = true -> (wide_signed c = true -> cf c <= bits (ct c) - 2) ->
  valid c m = true -> (0 <= qval (cf c) m)%Q ->
  exists i fr, integral_part c m = Ok i /\ fractional_part c m = Ok fr /\
    is_trunc 0 (qval (cf c) m) i /\ (qval (cf c) m == inject_Z i + qval (cf c) fr)%Q /\
    (0 <= qval (cf c) fr)%Q /\ (qval (cf c) fr < 1)%Q.
Proof. exact parts_recompose. Qed.
(** ... for negative ones integral_part() is the ceiling of the magnitude, and it is undefined near
    the minimum. *)
Theorem C22_integral_negative_is_ceil : forall c m, wf c = true -> (wide_signed c = true -> cf c <= bits (ct c) - 2) ->
  valid c m = true -> (qval (cf c) m < 0)%Q -> fits (bits (ct c)) (sgn (ct c)) (2 ^ cf c - 1 - m) ->
  exists i, integral_part c m = Ok i /\ is_ceil 0 (Qabs (qval (cf c) m)) i.
Proof. exact integral_neg_ceil. Qed.
Theorem C22_parts_refuted :
  exists m i fr, wf F32 = true /\ valid F32 m = true /\ fx_signbit F32 m = Ok true /\
    integral_part F32 m = Ok i /\ fractional_part F32 m = Ok fr /\
    (Qabs (qval (cf F32) m) == (3 # 2))%Q /\ ~ is_trunc 0 (Qabs (qval (cf F32) m)) i /\
    (inject_Z i + Qabs (qval (cf F32) fr) == (5 # 2))%Q.
Proof. exact parts_refuted. Qed.
Theorem C22_integral_part_ub_refuted :
  exists m, wf F32 = true /\ valid F32 m = true /\ integral_part F32 m = UB.
Proof. exact parts_refuted_ub. Qed.
Example C22_case : integral_part F32 98304 = Ok 1 /\ fractional_part F32 98304 = Ok 32768 /\
  integral_part F32 (-98304) = Ok 2.
Proof. repeat split. Qed.

(** C23 *)
Theorem C23_signbit : forall c m, wf c = true -> valid c m = true ->
  exists b, fx_signbit c m = Ok b /\ (b = true <-> (qval (cf c) m < 0)%Q) /\ (sgn (ct c) = false -> b = false).
Proof. exact signbit_thm. Qed.
(** [m mod 2^(w-1)]: the representation with the sign (top) bit cleared *)
Theorem C23_raw_integral_part : forall c m, wf c = true -> valid c m = true ->
  exists i, raw_integral_part c m = Ok i /\ is_floor 0 (qval (cf c) (m mod 2 ^ (bits (ct c) - 1))) i.
Proof. exact raw_integral_thm. Qed.
Example C23_case : fx_signbit F32 (-1) = Ok true /\ fx_signbit F32 0 = Ok false /\
  raw_integral_part F32 (-98304) = Ok 32766 /\ raw_integral_part F32 98304 = Ok 1.
Proof. repeat split. Qed.

(** C24 *)
Theorem C24_limits : forall c m, wf c = true -> valid c m = true ->
  valid c (nl_min c) = true /\ valid c (nl_max c) = true /\ nl_lowest c = nl_min c /\
  (qval (cf c) (nl_min c) <= qval (cf c) m)%Q /\ (qval (cf c) m <= qval (cf c) (nl_max c))%Q.
Proof. exact limits_thm. Qed.
Theorem C24_is_signed_refuted :
  wf U32 = true /\ nl_is_signed U32 = true /\ forall m, valid U32 m = true -> ~ (qval (cf U32) m < 0)%Q.
Proof. exact is_signed_refuted. Qed.
Theorem C24_epsilon_refuted :
  exists e one next, nl_epsilon F32 = Ok e /\ fx_of_int F32 1 = Ok one /\ valid F32 next = true /\
    (qval 16 one < qval 16 next)%Q /\ (qval 16 next - qval 16 one < qval 16 e)%Q.
Proof. exact epsilon_refuted. Qed.
Theorem C24_round_style_refuted :
  nl_round_style F32 = round_toward_zero /\
  exists x y m, valid F32 x = true /\ valid F32 y = true /\ fx_mul F32 x y = Ok m /\
    ~ is_trunc (cf F32) (qval (cf F32) x * qval (cf F32) y) m.
Proof. exact round_style_refuted. Qed.
Example C24_case : nl_min F32 = -2147483648 /\ nl_max F32 = 2147483647 /\ nl_min U32 = 0.
Proof. repeat split. Qed.

Print Assumptions C09_add.
Print Assumptions C09_sub.
Print Assumptions C09_neg.
Print Assumptions C10_mixed.
Print Assumptions C10_mixed_narrow_refuted.
Print Assumptions C11_mul_floor.
Print Assumptions C12_div_trunc.
Print Assumptions C12_div_ub_iff_zero.
Print Assumptions C13_mul_rounding_refuted.
Print Assumptions C13_div_rounding_refuted.
Print Assumptions C13_mul_rounding_is_doubled.
Print Assumptions C14_mul_int.
Print Assumptions C14_div_int.
Print Assumptions C14_div_int_unsigned_refuted.
Print Assumptions C15_rem_law.
Print Assumptions C15_rem_ub_iff.
Print Assumptions C16_divide.
Print Assumptions C16_divide_int.
Print Assumptions C17_incdec.
Print Assumptions C17_inc_no_integer_bits_refuted.
Print Assumptions C18_compound.
Print Assumptions C19_add_laws.
Print Assumptions C19_mul_comm_zero.
Print Assumptions C19_one_laws.
Print Assumptions C19_distributive.
Print Assumptions C19_mul_assoc.
Print Assumptions C20_cmp.
Print Assumptions C20_order.
Print Assumptions C20_add_monotone.
Print Assumptions C20_hash_respects_eq.
Print Assumptions C21_nearly.
Print Assumptions C21_epsilon.
Print Assumptions C21_nearly_laws.
Print Assumptions C21_unsigned_refuted.
Print Assumptions C21_overflow_refuted.
Print Assumptions C22_parts_nonnegative.
Print Assumptions C22_integral_negative_is_ceil.
Print Assumptions C22_parts_refuted.
Print Assumptions C22_integral_part_ub_refuted.
Print Assumptions C23_signbit.
Print Assumptions C23_raw_integral_part.
Print Assumptions C24_limits.
Print Assumptions C24_is_signed_refuted.
Print Assumptions C24_epsilon_refuted.
Print Assumptions C24_round_style_refuted.
