(** Property theorems: objects in memory, integer operands on the left, rounding quotients. *)
From Coq Require Import ZArith QArith Qabs.
From Verif Require Import Base Fixed Mem Spec SpecMem ArithProofs RoundDiv MemProofs RefuteArith.
Open Scope Z_scope.

(** C13: the rounding quotient, like the rounding product, is about twice the exact one *)
Theorem C13_div_rounding_is_doubled : forall c x y, wf c = true -> cr c = true -> valid c x = true -> valid c y = true -> y <> 0 ->
  ~ (sgn (ct c) = true /\ x = - 2 ^ (bits (ct c) - 1) /\ y = -1) ->
  exists m r, fx_div c x y = Ok m /\ valid c m = true /\ cong (bits (ct c)) m r /\
    (Qabs (qval (cf c) r - 2 * (qval (cf c) x / qval (cf c) y)) <= qval (cf c) 1)%Q.
Proof. exact div_round_thm. Qed.
Example C13_div_case : fx_div F32r 98304 65536 = Ok 196608 /\ fx_div F32r (-65536) 196608 = Ok (-43690) /\ fx_div F32r 65536 458752 = Ok 18724.
Proof. repeat split. Qed.

(** C16: the object after divide_by, also when it throws; [this] and [other] may be the same object *)
Theorem C16_divide_by_object : forall c s this other, wf c = true -> valid c (s other) = true ->
  assigned s this (if s other =? 0 then Throw divide_by_zero else fx_div c (s this) (s other)) (o_divide_by c this other s).
Proof. exact divide_by_obj. Qed.
Theorem C16_divide_by_int_object : forall c t s this n, ity_ok t = true -> in_range t n = true ->
  assigned s this (if n =? 0 then Throw divide_by_zero else fx_div_int c t (s this) n) (o_divide_by_int c t this n s).
Proof. exact divide_by_int_obj. Qed.
Example C16_object_case : let p := o_divide_by F32 0 1 (fun k => if k =? 0 then 98304 else 0) in
  snd p = Throw divide_by_zero /\ fst p 0 = 98304.
Proof. split; reflexivity. Qed.

(** C22: fractional_part() is x - trunc(x), of either sign *)
Theorem C22_fractional_part : forall c m i, wf c = true -> (wide_signed c = true -> cf c <= bits (ct c) - 2) -> valid c m = true ->
  is_trunc 0 (qval (cf c) m) i ->
  exists fr, fractional_part c m = Ok fr /\ (qval (cf c) m == inject_Z i + qval (cf c) fr)%Q.
Proof. exact fractional_thm. Qed.
Example C22_fractional_case : fractional_part F32 (-98304) = Ok (-32768) /\ is_trunc 0 (qval 16 (-98304)) (-1).
Proof. repeat split; intros; vm_compute in *; congruence. Qed.

(** C131 *)
Theorem C131_int_div : forall c t n x r, wf c = true -> cr c = false -> valid c x = true -> x <> 0 ->
  representable (bits (ct c)) (sgn (ct c)) (cf c) (inject_Z n) ->
  is_trunc (cf c) (inject_Z n / qval (cf c) x) r ->
  exists m, int_div_fx c t n x = Ok m /\ valid c m = true /\ cong (bits (ct c)) m r /\ (fits (bits (ct c)) (sgn (ct c)) r -> m = r).
Proof. exact int_div_thm. Qed.
Theorem C131_int_div_ub_iff : forall c t n x, wf c = true -> cr c = false -> valid c x = true -> (int_div_fx c t n x = UB <-> x = 0).
Proof. exact int_div_ub. Qed.
Theorem C131_int_rem : forall c t n x, wf c = true -> valid c x = true -> x <> 0 ->
  representable (bits (ct c)) (sgn (ct c)) (cf c) (inject_Z n) ->
  ~ (wide_signed c = true /\ n * 2 ^ cf c = - 2 ^ (bits (ct c) - 1) /\ x = -1) ->
  exists m, int_rem_fx c t n x = Ok m /\ valid c m = true /\
    (exists k, (inject_Z n == inject_Z k * qval (cf c) x + qval (cf c) m)%Q) /\
    (Qabs (qval (cf c) m) < Qabs (qval (cf c) x))%Q /\
    (0 <= n -> (0 <= qval (cf c) m)%Q) /\ (n <= 0 -> (qval (cf c) m <= 0)%Q).
Proof. exact int_rem_thm. Qed.
Theorem C131_int_rem_ub_iff : forall c t n x, wf c = true -> valid c x = true ->
  representable (bits (ct c)) (sgn (ct c)) (cf c) (inject_Z n) ->
  (int_rem_fx c t n x = UB <-> x = 0 \/ (wide_signed c = true /\ n * 2 ^ cf c = - 2 ^ (bits (ct c) - 1) /\ x = -1)).
Proof. exact int_rem_ub. Qed.
Example C131_case : int_div_fx F32 int32 (-1) 196608 = Ok (-21845) /\ int_rem_fx F32 int64 (-7) 163840 = Ok (-131072) /\
  int_div_fx F32 int32 1 0 = UB /\ is_trunc 16 (inject_Z (-1) / qval 16 196608) (-21845) /\
  representable 32 true 16 (inject_Z (-1)).
Proof.
  split; [reflexivity|]. split; [reflexivity|]. split; [reflexivity|]. split.
  - repeat split; intros; vm_compute in *; congruence.
  - exists (-65536). split; vm_compute; intuition congruence.
Qed.

(** C132 *)
Theorem C132_compound_objects : forall c s this other,
  assigned s this (fx_add c (s this) (s other)) (o_add_assign c this other s) /\
  assigned s this (fx_sub c (s this) (s other)) (o_sub_assign c this other s) /\
  assigned s this (fx_mul c (s this) (s other)) (o_mul_assign c this other s) /\
  assigned s this (fx_div c (s this) (s other)) (o_div_assign c this other s) /\
  assigned s this (fx_rem c (s this) (s other)) (o_rem_assign c this other s).
Proof. exact alias_thm. Qed.
Theorem C132_compound_int_objects : forall c t s this n,
  assigned s this (fx_add_int c t (s this) n) (o_add_assign_int c this n s) /\
  assigned s this (fx_sub_int c t (s this) n) (o_sub_assign_int c this n s) /\
  assigned s this (fx_mul_int c t (s this) n) (o_mul_assign_int c t this n s) /\
  assigned s this (fx_div_int c t (s this) n) (o_div_assign_int c t this n s).
Proof. exact alias_int_thm. Qed.
Theorem C132_incdec_objects : forall c s this,
  stepped s this (fx_preinc c (s this)) (o_preinc c this s) /\ stepped s this (fx_postinc c (s this)) (o_postinc c this s) /\
  stepped s this (fx_predec c (s this)) (o_predec c this s) /\ stepped s this (fx_postdec c (s this)) (o_postdec c this s).
Proof. exact incdec_obj. Qed.
Example C132_case : let s := fun k : Z => 196608 in
  fst (o_div_assign F32 0 0 s) 0 = 65536 /\ fst (o_sub_assign F32 0 0 s) 0 = 0 /\ fst (o_mul_assign F32 0 0 s) 0 = 589824 /\
  fst (o_mul_assign F32 0 0 s) 1 = 196608 /\ snd (o_mul_assign F32 0 0 s) = Ok 0.
Proof. repeat split. Qed.

(** C133: false: the inner ++ of [++(++x)] returns a copy, and the outer one increments that copy ... *)
Theorem C133_chained_increment_refuted :
  exists s s' w, wf F32 = true /\ valid F32 (s 0) = true /\ e_preinc2 F32 1 0 s = (s', Ok w) /\
    (qval 16 (s 0%Z) == 0)%Q /\ (qval 16 w == 2)%Q /\ (qval 16 (s' 0%Z) == 1)%Q.
Proof. exact chain_refuted. Qed.
(** ... for every value, whereas += can be chained. *)
Theorem C133_chained_increment : forall c s tmp x, wf c = true -> (wide_signed c = true -> cf c <= bits (ct c) - 2) ->
  tmp <> x -> valid c (s x) = true ->
  representable (bits (ct c)) (sgn (ct c)) (cf c) (qval (cf c) (s x) + 1) ->
  representable (bits (ct c)) (sgn (ct c)) (cf c) (qval (cf c) (s x) + 2) ->
  (exists s' w, e_preinc2 c tmp x s = (s', Ok w) /\
     (qval (cf c) w == qval (cf c) (s x) + 2)%Q /\ (qval (cf c) (s' x) == qval (cf c) (s x) + 1)%Q) /\
  (exists s' w, e_add2 c x 1 s = (s', Ok w) /\
     (qval (cf c) w == qval (cf c) (s x) + 2)%Q /\ (qval (cf c) (s' x) == qval (cf c) (s x) + 2)%Q).
Proof. exact chain_thm. Qed.
Example C133_case : let s := fun k : Z => 98304 in
  snd (e_preinc2 F32 1 0 s) = Ok 229376 /\ fst (e_preinc2 F32 1 0 s) 0 = 163840 /\ fst (e_add2 F32 0 1 s) 0 = 229376.
Proof. repeat split. Qed.

Print Assumptions C13_div_rounding_is_doubled.
Print Assumptions C16_divide_by_object.
Print Assumptions C16_divide_by_int_object.
Print Assumptions C22_fractional_part.
Print Assumptions C131_int_div.
Print Assumptions C131_int_div_ub_iff.
Print Assumptions C131_int_rem.
Print Assumptions C131_int_rem_ub_iff.
Print Assumptions C132_compound_objects.
Print Assumptions C132_compound_int_objects.
Print Assumptions C132_incdec_objects.
Print Assumptions C133_chained_increment_refuted.
Print Assumptions C133_chained_increment.
