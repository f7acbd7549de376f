(** C164-C166: the accuracy statistics of bench_perf.cpp.  Only statements; the proofs are in BPerfProofs.v. *)
From Coq Require Import ZArith QArith Qabs Bool List.
From Verif Require Import Base Fixed Math Spec SpecAccuracy SpecBPerf BPerf BPerfProofs.
Import ListNotations.
Open Scope Z_scope.

(** C164: after fewer than 2^31 updates the statistics are the number of samples, the largest and the mean absolute error and the
    largest relative error of all of them; one more update is undefined *)
Theorem C164_statistics : forall l, Z.of_nat (length l) < 2 ^ 31 -> exists s, updates acc0 l = Ok s /\ total_samples s = Z.of_nat (length l) /\
  is_largest (max_abs s) (errors l) /\ is_mean (avg_abs s) (errors l) /\ is_largest (max_rel s) (relative_errors l).
Proof. exact statistics. Qed.
Theorem C164_overflow : forall l, 2 ^ 31 <= Z.of_nat (length l) -> updates acc0 l = UB.
Proof. exact updates_ub. Qed.
(** a second run of the benchmark continues the statistics of the first *)
Theorem C164_runs : forall l1 s l2, updates s (l1 ++ l2) = (let* s := updates s l1 in updates s l2).
Proof. exact updates_app. Qed.
Example C164_case : exists s, updates acc0 [(1, 1 # 2); (0, -2); (3, 2)]%Q = Ok s /\ (max_abs s == 2 /\ avg_abs s == 7 # 6 /\ max_rel s == 1 /\ avg_rel s == 5 # 6)%Q /\
  total_samples s = 3.
Proof. eexists. split; [reflexivity|]. repeat split; vm_compute; reflexivity. Qed.
Print Assumptions C164_statistics.
Print Assumptions C164_overflow.
Print Assumptions C164_runs.

(** C165: the average relative error is the mean of the relative errors when no reference value is zero; it never exceeds the largest *)
Theorem C165_average : forall l s, updates acc0 l = Ok s -> Forall (fun p => ~ (snd p == 0)%Q) l -> is_mean (avg_rel s) (relative_errors l).
Proof. exact avg_rel_thm. Qed.
Theorem C165_bounds : forall l s, updates acc0 l = Ok s -> (0 <= avg_rel s <= max_rel s)%Q.
Proof. exact avg_rel_bounds. Qed.
(** a sample with reference zero is not skipped: it counts as one whose relative error is the average so far *)
Theorem C165_average_refuted : exists s, updates acc0 [(1, 0); (2, 1)]%Q = Ok s /\ ~ is_mean (avg_rel s) (relative_errors [(1, 0); (2, 1)]%Q).
Proof. exact avg_rel_refuted. Qed.
Example C165_case : exists s, updates acc0 [(2, 1); (3, 2)]%Q = Ok s /\ (avg_rel s == 3 # 4)%Q.
Proof. eexists. split; [reflexivity|]. vm_compute. reflexivity. Qed.
Print Assumptions C165_average.
Print Assumptions C165_bounds.
Print Assumptions C165_average_refuted.

(** C166: iteration i of the loop looks at sample i modulo their number, and passes the truncated value of the function there and the
    reference value to the statistics *)
Theorem C166_loop : forall g (samples : list sample) n, samples <> [] -> Z.of_nat (length samples) < 2 ^ 64 -> Z.of_nat n < 2 ^ 31 ->
  Forall (fun '(num, k, _) => exists x v, fx_of_float F64 num k = Ok x /\ g x = Ok v /\ valid F64 v = true) samples ->
  exists l, length l = n /\
    (forall i p, nth_error l i = Some p -> exists num k ref x v d,
       nth_error samples (i mod length samples) = Some (num, k, ref) /\ fx_of_float F64 num k = Ok x /\ g x = Ok v /\
       is_trunc 0 (qval 32 v) d /\ p = (inject_Z d, ref)) /\
    acc_loop g samples n 0 0 acc0 = updates acc0 l.
Proof. exact loop_thm. Qed.
(** from 2^31 iterations on the counters overflow; without samples the first iteration divides by zero *)
Theorem C166_overflow : forall g (samples : list sample) n, samples <> [] -> Z.of_nat (length samples) < 2 ^ 64 -> 2 ^ 31 <= Z.of_nat n ->
  Forall (fun '(num, k, _) => exists x v, fx_of_float F64 num k = Ok x /\ g x = Ok v /\ valid F64 v = true) samples ->
  acc_loop g samples n 0 0 acc0 = UB.
Proof. exact loop_ub_count. Qed.
Theorem C166_no_samples : forall g n index count s, acc_loop g [] (S n) index count s = UB.
Proof. exact loop_empty. Qed.
(** so two functions whose values lie strictly between -1 and 1 get the same statistics ... *)
Theorem C166_blind : forall g g' (samples : list sample) n i count s,
  Forall (fun '(num, k, _) => exists x v, fx_of_float F64 num k = Ok x /\ g x = Ok v /\ valid F64 v = true /\ (Qabs (qval 32 v) < 1)%Q) samples ->
  Forall (fun '(num, k, _) => exists x v, fx_of_float F64 num k = Ok x /\ g' x = Ok v /\ valid F64 v = true /\ (Qabs (qval 32 v) < 1)%Q) samples ->
  acc_loop g samples n i count s = acc_loop g' samples n i count s.
Proof. exact loop_blind. Qed.
(** ... and the error recorded for sin at 0.5 is more than 0.479 although the value is right to 10^-4 *)
Theorem C166_error_refuted : forall ref, (Qabs (ref - (479425538604 # 1000000000000)) <= 1 # 1000000000)%Q ->
  exists x v s, fx_of_float F64 1 1 = Ok x /\ fx_sin F64 x = Ok v /\ acc_loop (fx_sin F64) [(1, 1, ref)] 1 0 0 acc0 = Ok s /\
    (Qabs (qval 32 v - ref) < 1 # 10000)%Q /\ (479 # 1000 < max_abs s)%Q.
Proof. exact loop_refuted. Qed.
(** the samples are the random points and the critical points of the range, which is widened if it is the single point 0 *)
Theorem C166_samples : forall random critical lo hi p, In p (perf_samples random critical lo hi) <->
  In p random \/ In p critical /\ (fst (perf_range lo hi) <= p /\ p <= snd (perf_range lo hi))%Q.
Proof. exact samples_in. Qed.
Theorem C166_range : forall lo hi, ((lo == 0 /\ hi == 0)%Q -> perf_range lo hi = (- (1 # 1000), 1 # 1000)%Q) /\
  (~ (lo == 0 /\ hi == 0)%Q -> perf_range lo hi = (lo, hi)).
Proof. exact range_thm. Qed.
Example C166_case : exists s, acc_loop (fun x => Ok (3 * x)) [(1, 1, 2%Q); (1, 0, 3%Q)] 3 0 0 acc0 = Ok s /\ total_samples s = 3 /\
  (max_abs s == 1 /\ avg_abs s == 2 # 3 /\ max_rel s == 1 # 2 /\ avg_rel s == 1 # 3)%Q.
Proof. eexists. split; [vm_compute; reflexivity|]. repeat split; vm_compute; reflexivity. Qed.
Example C166_case2 : perf_samples [1 # 3; 1 # 5]%Q [0; 1; -2]%Q 0 1 = [1 # 3; 1 # 5; 0; 1]%Q /\ perf_samples [] [0; 1]%Q 0 0 = [0]%Q.
Proof. split; vm_compute; reflexivity. Qed.
Print Assumptions C166_loop.
Print Assumptions C166_overflow.
Print Assumptions C166_no_samples.
Print Assumptions C166_blind.
Print Assumptions C166_error_refuted.
Print Assumptions C166_samples.
Print Assumptions C166_range.
