(** Property theorems C187, C188: order, exactness at powers of two, products and quotients of the logarithms in every instantiation of C178. *)
From Coq Require Import ZArith Reals Lia Lra.
From Interval Require Import Tactic.
From Verif Require Import Base Fixed Math Spec SpecReal LogGen LogGen2 LogGen3 LogGen4.
Open Scope R_scope.

Theorem C187_log2_order : forall c m n, wf c = true -> sgn (ct c) = true ->
  (bits (ct c) = 32 /\ cf c <= 26 \/ bits (ct c) = 64 /\ cf c <= 32)%Z -> valid c m = true -> valid c n = true -> 0 < rval (cf c) m -> rval (cf c) m <= rval (cf c) n ->
  exists r s, fx_log2 c m = Ok r /\ fx_log2 c n = Ok s /\ rval (cf c) r <= rval (cf c) s.
Proof. intros c m n W S B. exact (log2_gen_order c m n (conj W (conj S B))). Qed.
Theorem C187_log_order : forall c m n, wf c = true -> sgn (ct c) = true ->
  (bits (ct c) = 32 /\ cf c <= 26 \/ bits (ct c) = 64 /\ cf c <= 32)%Z -> cr c = false -> valid c m = true -> valid c n = true -> 0 < rval (cf c) m -> rval (cf c) m <= rval (cf c) n ->
  exists r s, fx_log c m = Ok r /\ fx_log c n = Ok s /\ rval (cf c) r <= rval (cf c) s.
Proof. intros c m n W S B. exact (log_gen_order c m n (conj W (conj S B))). Qed.
Theorem C187_log10_order : forall c m n, wf c = true -> sgn (ct c) = true ->
  (bits (ct c) = 32 /\ cf c <= 26 \/ bits (ct c) = 64 /\ cf c <= 32)%Z -> cr c = false -> valid c m = true -> valid c n = true -> 0 < rval (cf c) m -> rval (cf c) m <= rval (cf c) n ->
  exists r s, fx_log10 c m = Ok r /\ fx_log10 c n = Ok s /\ rval (cf c) r <= rval (cf c) s.
Proof. intros c m n W S B. exact (log10_gen_order c m n (conj W (conj S B))). Qed.
Theorem C187_log2_double : forall c m, wf c = true -> sgn (ct c) = true ->
  (bits (ct c) = 32 /\ cf c <= 26 \/ bits (ct c) = 64 /\ cf c <= 32)%Z -> valid c m = true -> 0 < rval (cf c) m -> valid c (2 * m) = true ->
  exists r s, fx_log2 c m = Ok r /\ fx_log2 c (2 * m) = Ok s /\ rval (cf c) s = rval (cf c) r + 1.
Proof. intros c m W S B. exact (log2_gen_double c m (conj W (conj S B))). Qed.
Theorem C187_log2_power : forall c m k, wf c = true -> sgn (ct c) = true ->
  (bits (ct c) = 32 /\ cf c <= 26 \/ bits (ct c) = 64 /\ cf c <= 32)%Z -> valid c m = true -> rval (cf c) m = powerRZ 2 k ->
  exists r, fx_log2 c m = Ok r /\ rval (cf c) r = IZR k.
Proof. intros c m k W S B. exact (log2_gen_pow2 c m k (conj W (conj S B))). Qed.
Theorem C188_log2_product : forall c a b, wf c = true -> sgn (ct c) = true ->
  (bits (ct c) = 32 /\ cf c <= 26 \/ bits (ct c) = 64 /\ cf c <= 32)%Z -> cr c = false -> valid c a = true -> valid c b = true -> 0 < rval (cf c) a -> 0 < rval (cf c) b ->
  rval (cf c) a * rval (cf c) b < rval (cf c) (2 ^ (bits (ct c) - 1)) ->
  exists p, fx_mul c a b = Ok p /\ (0 < rval (cf c) p ->
  exists la lb lp, fx_log2 c a = Ok la /\ fx_log2 c b = Ok lb /\ fx_log2 c p = Ok lp /\
  - (4 * ulp (cf c) + 1.4427 * ulp (cf c) / rval (cf c) p) < rval (cf c) lp - (rval (cf c) la + rval (cf c) lb) < 8 * ulp (cf c)).
Proof. intros c a b W S B R. exact (log2_product_gen c (conj W (conj S B)) R a b). Qed.
Theorem C188_log_product : forall c a b, wf c = true -> sgn (ct c) = true ->
  (bits (ct c) = 32 /\ cf c <= 26 \/ bits (ct c) = 64 /\ cf c <= 32)%Z -> cr c = false -> valid c a = true -> valid c b = true -> 0 < rval (cf c) a -> 0 < rval (cf c) b ->
  rval (cf c) a * rval (cf c) b < rval (cf c) (2 ^ (bits (ct c) - 1)) ->
  exists p, fx_mul c a b = Ok p /\ (0 < rval (cf c) p ->
  exists la lb lp, fx_log c a = Ok la /\ fx_log c b = Ok lb /\ fx_log c p = Ok lp /\
  Rabs (rval (cf c) lp - (rval (cf c) la + rval (cf c) lb)) <= (18 + Rabs (ln (rval (cf c) a)) + Rabs (ln (rval (cf c) b)) + Rabs (ln (rval (cf c) p))) * ulp (cf c) + ulp (cf c) / rval (cf c) p).
Proof. intros c a b W S B R. exact (log_product_gen c (conj W (conj S B)) R a b). Qed.
Theorem C188_log2_quotient : forall c a b, wf c = true -> sgn (ct c) = true ->
  (bits (ct c) = 32 /\ cf c <= 26 \/ bits (ct c) = 64 /\ cf c <= 32)%Z -> cr c = false -> valid c a = true -> valid c b = true -> 0 < rval (cf c) a -> 0 < rval (cf c) b ->
  rval (cf c) a / rval (cf c) b < rval (cf c) (2 ^ (bits (ct c) - 1)) ->
  exists p, fx_div c a b = Ok p /\ (0 < rval (cf c) p ->
  exists la lb lp, fx_log2 c a = Ok la /\ fx_log2 c b = Ok lb /\ fx_log2 c p = Ok lp /\
  - (8 * ulp (cf c) + 1.4427 * ulp (cf c) / rval (cf c) p) < rval (cf c) lp - (rval (cf c) la - rval (cf c) lb) < 4 * ulp (cf c)).
Proof. intros c a b W S B R. exact (log2_quotient_gen c (conj W (conj S B)) R a b). Qed.
Theorem C188_log_quotient : forall c a b, wf c = true -> sgn (ct c) = true ->
  (bits (ct c) = 32 /\ cf c <= 26 \/ bits (ct c) = 64 /\ cf c <= 32)%Z -> cr c = false -> valid c a = true -> valid c b = true -> 0 < rval (cf c) a -> 0 < rval (cf c) b ->
  rval (cf c) a / rval (cf c) b < rval (cf c) (2 ^ (bits (ct c) - 1)) ->
  exists p, fx_div c a b = Ok p /\ (0 < rval (cf c) p ->
  exists la lb lp, fx_log c a = Ok la /\ fx_log c b = Ok lb /\ fx_log c p = Ok lp /\
  Rabs (rval (cf c) lp - (rval (cf c) la - rval (cf c) lb)) <= (18 + Rabs (ln (rval (cf c) a)) + Rabs (ln (rval (cf c) b)) + Rabs (ln (rval (cf c) p))) * ulp (cf c) + ulp (cf c) / rval (cf c) p).
Proof. intros c a b W S B R. exact (log_quotient_gen c (conj W (conj S B)) R a b). Qed.
Example C187_case : wf Q8 = true /\ valid Q8 2560 = true /\ fx_log2 Q8 640 = Ok 338%Z /\ fx_log2 Q8 1280 = Ok 594%Z /\ fx_log2 Q8 2560 = Ok 850%Z /\
  fx_log Q8 640 = Ok 234%Z /\ fx_log Q8 2560 = Ok 589%Z /\ fx_log10 Q8 640 = Ok 101%Z /\ fx_log10 Q8 2560 = Ok 256%Z /\ fx_log2 Q8 64 = Ok (-512)%Z.
Proof. vm_compute. repeat split. Qed.
Example C187_case_power : rval 8 64 = powerRZ 2 (-2) /\ 0 < rval 8 640 <= rval 8 2560.
Proof. unfold rval. change (IZR (2 ^ 8)) with 256. split; [change (powerRZ 2 (-2)) with (/ (2 * (2 * 1))); field|split; lra]. Qed.
(** 2.5 * 10 = 25 and 25 / 10 = 2.5 with 8 fraction bits *)
Example C188_case : fx_mul Q8 640 2560 = Ok 6400%Z /\ fx_div Q8 6400 2560 = Ok 640%Z /\ fx_log2 Q8 6400 = Ok 1188%Z /\ fx_log Q8 6400 = Ok 824%Z /\
  rval 8 640 * rval 8 2560 < rval 8 (2 ^ (32 - 1)).
Proof. repeat split; try (vm_compute; reflexivity). unfold rval. change (IZR (2 ^ 8)) with 256. change (2 ^ (32 - 1))%Z with 2147483648%Z. lra. Qed.
Print Assumptions C187_log2_order.
Print Assumptions C187_log_order.
Print Assumptions C187_log10_order.
Print Assumptions C187_log2_double.
Print Assumptions C187_log2_power.
Print Assumptions C188_log2_product.
Print Assumptions C188_log_product.
Print Assumptions C188_log2_quotient.
Print Assumptions C188_log_quotient.
