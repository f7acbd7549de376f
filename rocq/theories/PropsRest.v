(** Property theorems for parts no other file covers.  Statements only; proofs are in RestProofs.v and EulerGamma.v. *)
From Coq Require Import ZArith Bool QArith Qabs List String Reals.
From Verif Require Import Base Fixed Math Numbers Random Ext Literal Spec SpecReal SpecText SpecLiteral SpecFp SpecConst InProofs NumThms RestProofs EulerGamma.
Import ListNotations.
Open Scope Z_scope.

(** C24: digits, radix and digits10 of numeric_limits are fixed-point numbers; they are right when the type can hold them *)
Theorem C24_digits : forall c, wf c = true ->
  (representable (bits (ct c)) (sgn (ct c)) (cf c) (inject_Z (bits (ct c) - 1)) ->
     exists m, nl_digits c = Ok m /\ (qval (cf c) m == inject_Z (bits (ct c) - 1))%Q) /\
  (representable (bits (ct c)) (sgn (ct c)) (cf c) (inject_Z 2) -> exists m, nl_radix c = Ok m /\ (qval (cf c) m == 2)%Q) /\
  (exists d, 10 ^ d <= 2 ^ (bits (ct c) - 1) < 10 ^ (d + 1) /\
    (representable (bits (ct c)) (sgn (ct c)) (cf c) (inject_Z d) -> exists m, nl_digits10 c = Ok m /\ (qval (cf c) m == inject_Z d)%Q)).
Proof. exact digits_thm. Qed.
(** ... and wrong when it cannot: -1 digits, radix 0 *)
Theorem C24_digits_refuted : wf F8_7 = true /\ nl_digits F8_7 = Ok (-128) /\ (qval 7 (-128) == -1)%Q /\ nl_radix F8_7 = Ok 0.
Proof. exact digits_refuted. Qed.
(** max_value, min_value of math.hpp *)
Theorem C24_math_limits : forall c m, wf c = true -> valid c m = true -> valid c (min_value c) = true /\ valid c (max_value c) = true /\
  (qval (cf c) (min_value c) <= qval (cf c) m)%Q /\ (qval (cf c) m <= qval (cf c) (max_value c))%Q.
Proof. exact math_limits. Qed.
Print Assumptions C24_digits.
Print Assumptions C24_digits_refuted.
Print Assumptions C24_math_limits.
Example C24_digits_case : nl_digits F32 = Ok (31 * 65536) /\ nl_digits10 F64 = Ok (18 * 2 ^ 32) /\ nl_radix F32 = Ok 131072 /\
  representable 32 true 16 (inject_Z 31) /\ max_value F64 = 2 ^ 63 - 1.
Proof. do 3 (split; [reflexivity|]). split; [|reflexivity]. exists (31 * 65536). split; [vm_compute; split; congruence|reflexivity]. Qed.

(** C25: Euler's constant; [is_euler_gamma g]: g is the limit of 1 + ... + 1/n - ln n *)
Theorem C25_egamma : forall g, is_euler_gamma g -> trunc_const 16 (egamma_v F32) g /\ trunc_const 32 (egamma_v F64) g.
Proof. exact egamma_trunc. Qed.
Theorem C25_egamma_exists : exists g, is_euler_gamma g.
Proof. exact gamma_exists. Qed.
Print Assumptions C25_egamma.
Print Assumptions C25_egamma_exists.
Example C25_egamma_case : egamma_v F32 = Ok 37828 /\ egamma_v F64 = Ok 2479122403.
Proof. split; vm_compute; reflexivity. Qed.

(** C55: hypot with three arguments *)
Theorem C55_hypot3_32 : forall x y z a b d, valid F32 x = true -> valid F32 y = true -> valid F32 z = true ->
  is_floor 16 (qval 16 x * qval 16 x) a -> is_floor 16 (qval 16 y * qval 16 y) b -> is_floor 16 (qval 16 z * qval 16 z) d ->
  fits 32 true (a + b + d) ->
  exists r, fx_hypot3 F32 x y z = Ok r /\ valid F32 r = true /\ (0 <= qval 16 r)%Q /\
    (qval 16 r * qval 16 r <= qval 16 (a + b + d))%Q /\ (qval 16 (a + b + d) < qval 16 (r + 1) * qval 16 (r + 1))%Q.
Proof. exact hypot3_32. Qed.
Theorem C55_hypot3_sum : forall x y z a b d,
  is_floor 16 (qval 16 x * qval 16 x) a -> is_floor 16 (qval 16 y * qval 16 y) b -> is_floor 16 (qval 16 z * qval 16 z) d ->
  (qval 16 (a + b + d) <= qval 16 x * qval 16 x + qval 16 y * qval 16 y + qval 16 z * qval 16 z)%Q /\
  (qval 16 x * qval 16 x + qval 16 y * qval 16 y + qval 16 z * qval 16 z < qval 16 (a + b + d) + qval 16 3)%Q.
Proof. exact hypot3_acc. Qed.
Theorem C55_hypot3_zero : forall c x y, wf c = true -> cr c = false -> valid c x = true -> valid c y = true ->
  fx_hypot3 c x y 0 = fx_hypot c x y.
Proof. exact hypot3_zero. Qed.
Print Assumptions C55_hypot3_32.
Print Assumptions C55_hypot3_sum.
Print Assumptions C55_hypot3_zero.
(** (1, -2, 2) has length 3 *)
Example C55_hypot3_case : fx_hypot3 F32 65536 (-131072) 131072 = Ok 196608 /\ is_floor 16 (qval 16 (-131072) * qval 16 (-131072)) 262144 /\
  fits 32 true (65536 + 262144 + 262144).
Proof. vm_compute. repeat split; congruence. Qed.

(** C82: unlike seed(s), seed(seq) forgets the past: [e], [e'] are any engines *)
Theorem C82_seed_sequence : forall p e e' s0 s1, pcg_ok p = true -> eng_eq p (reseed_seq p e s0 s1) (reseed_seq p e' s0 s1) = true /\
  eng_ok p (reseed_seq p e s0 s1) = true /\
  (in_range (pu p) s0 = true -> in_range (pu p) s1 = true -> m_seed (reseed_seq p e s0 s1) = s0 /\ m_state (reseed_seq p e s0 s1) = s1).
Proof. exact seed_seq. Qed.
Print Assumptions C82_seed_sequence.
Example C82_seed_sequence_case : reseed_seq pcg2014 (new_default pcg2014) 5 6 = {| m_seed := 5; m_state := 6 |}.
Proof. reflexivity. Qed.

(** C102: the fixed-point adapter never draws its min() *)
Theorem C102_adapter_min_refuted : forall pl e v e', eng_ok pcg2014 e = true -> adapter_draw pl F32 pcg2014 e = Ok (v, e') -> adapter_min F32 < v.
Proof. exact adapter_min_never. Qed.
Print Assumptions C102_adapter_min_refuted.
(** C103: a new adapter draws what a new engine draws *)
Theorem C103_fresh : forall pl c p r e', wf c = true -> draw pl p (new_default p) = Ok (r, e') ->
  adapter_draw pl c p (adapter_new p) = Ok (wrap (ct c) r, e').
Proof. exact adapter_fresh. Qed.
Print Assumptions C103_fresh.
Example C103_fresh_case : exists r e', draw mask_shift pcg2014 (new_default pcg2014) = Ok (r, e') /\ adapter_min F32 = -2147483648.
Proof. do 2 eexists. split; vm_compute; reflexivity. Qed.

(** C105 *)
Theorem C105_float : forall k v n, 0 <= k -> is_trunc 0 (qval k v) n -> fits 64 true n ->
  exists x, xint_of_float (Z.quot v (2 ^ k)) = Ok x /\ xint_to_int64 x = n /\ low_bits x = n /\ high_bits x = 0.
Proof. exact xint_float_roundtrip. Qed.
Theorem C105_parts : forall h l, fits 64 true h -> fits 64 true l -> high_bits (xint_pair h l) = h /\ low_bits (xint_pair h l) = l.
Proof. exact xint_parts. Qed.
Print Assumptions C105_float.
Print Assumptions C105_parts.
Example C105_float_case : is_trunc 0 (qval 1 (-5)) (-2) /\ xint_of_float (Z.quot (-5) 2) = Ok {| x_high := 0; x_low := -2 |} /\ high_bits (xint_pair 3 5) = 3.
Proof. repeat split; intros; vm_compute in *; congruence. Qed.

(** C134: a floating fixed32 literal.  [n / 2^k] is the long double the compiler makes of the literal's value [q] *)
Theorem C134_f32_float : forall s q n k, float_literal s q -> 0 <= k -> fp_nearest 64 q (qval k n) -> (q <= qval 16 2147483647)%Q ->
  exists m, f32_float_literal n k = Ok m /\ valid F32 m = true /\ (Qabs (q - qval 16 m) < qval 16 1)%Q /\
    ((q == qval k n)%Q -> is_trunc 16 q m).
Proof. exact f32_float. Qed.
Print Assumptions C134_f32_float.
Example C134_f32_float_case : float_literal (txt "1.5") (numeral 10 false [1%Z] [5%Z]) /\ f32_float_literal 3 1 = Ok 98304 /\
  fp_nearest 64 (numeral 10 false [1%Z] [5%Z]) (qval 1 3) /\ (numeral 10 false [1%Z] [5%Z] <= qval 16 2147483647)%Q.
Proof.
  split; [apply (fl_plain [49] [53] [1] [5]); [apply (ds_one 10 false 1)|apply (ds_one 10 false 5)]; split; vm_compute; congruence|].
  split; [reflexivity|]. split; [|vm_compute; congruence]. split.
  - exists 3, 0, 1. repeat split; vm_compute; congruence.
  - intros r' _. setoid_replace (qval 1 3 - numeral 10 false [1%Z] [5%Z])%Q with 0%Q by reflexivity. apply Qabs_nonneg.
Qed.

(** C140: a distribution built from the parameters of another one, or given its own, is that one *)
Theorem C140_rebuild : forall nd c dt a b d, dist_new nd c dt a b = Ok d ->
  dist_of_param c dt (dist_param d) = Ok d /\ dist_set_param c dt d (dist_param d) = Ok d.
Proof. exact param_rebuild. Qed.
Print Assumptions C140_rebuild.
Example C140_case : exists d, dist_new false F32 int32 (-65536) 65536 = Ok d /\ q_a (dist_param d) = -65536.
Proof. eexists. split; reflexivity. Qed.
