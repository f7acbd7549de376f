(** Model of benchmark/bench_perf.cpp: AccuracyStats and the loop of BM_SinWithAccuracy.  Simplified: the statistics are computed in
    exact arithmetic instead of double.  Not modelled: the timing, the counters and the printed report.  No proofs in this file. *)
From Coq Require Import ZArith QArith Qabs Bool List.
From Verif Require Import Base Fixed Accuracy.
Import ListNotations.
Open Scope Z_scope.

(** bench_perf.cpp:209-215; total_samples is an int *)
Record acc_stats := { max_abs : Q; avg_abs : Q; max_rel : Q; avg_rel : Q; total_samples : Z }.
Definition acc0 : acc_stats := {| max_abs := 0; avg_abs := 0; max_rel := 0; avg_rel := 0; total_samples := 0 |}.

(** bench_perf.cpp:217-231 AccuracyStats::update *)
Definition update (s : acc_stats) (computed reference : Q) : res acc_stats :=
  let abs_error := Qabs (computed - reference) in
  let max_abs' := qmax (max_abs s) abs_error in
  let* d := c_add int32 int32 (total_samples s) 1 in
  let avg_abs' := (avg_abs s + (abs_error - avg_abs s) / inject_Z d)%Q in
  let* rel :=
    if Qeq_bool reference 0 then Ok (max_rel s, avg_rel s)
    else
      let rel_error := (abs_error / Qabs reference)%Q in
      let* d := c_add int32 int32 (total_samples s) 1 in
      Ok (qmax (max_rel s) rel_error, (avg_rel s + (rel_error - avg_rel s) / inject_Z d)%Q) in
  let* n := c_add int32 int32 (total_samples s) 1 in
  Ok {| max_abs := max_abs'; avg_abs := avg_abs'; max_rel := fst rel; avg_rel := snd rel; total_samples := n |}.
Fixpoint updates (s : acc_stats) (l : list (Q * Q)) : res acc_stats :=
  match l with [] => Ok s | (c, r) :: l => let* s := update s c r in updates s l end.

(** bench_perf.cpp:257-287: the points of one run.  [random] are the drawn points, [critical] the twelve of lines 276-278 *)
Definition perf_range (lo hi : Q) : Q * Q :=
  if Qeq_bool lo hi && Qeq_bool lo 0 then (- (1 # 1000), 1 # 1000)%Q else (lo, hi).
Definition perf_samples (random critical : list Q) (lo hi : Q) : list Q :=
  let '(lo, hi) := perf_range lo hi in
  random ++ filter (fun pt => Qle_bool lo pt && Qle_bool pt hi) critical.

(** bench_perf.cpp:289-320: [n] iterations.  A sample is a double num / 2^k with its reference value std::sin(input); [index] is a
    size_t, [count] an int; an element past the end of the vector is undefined. *)
Definition sample := (Z * Z * Q)%type.
Fixpoint acc_loop (g : Z -> res Z) (samples : list sample) (n : nat) (index count : Z) (s : acc_stats) : res acc_stats :=
  match n with
  | O => Ok s
  | S n =>
      let* i := c_rem uint64 uint64 index (Z.of_nat (length samples)) in
      match nth_error samples (Z.to_nat i) with
      | None => UB
      | Some (num, k, ref) =>
          let* fp1 := fx_of_float F64 num k in
          let* result := g fp1 in
          let* d := fx_to_float F64 result in
          let* s := update s (inject_Z d) ref in
          let* count := c_add int32 int32 count 1 in
          let* index := c_add uint64 int32 index 1 in
          acc_loop g samples n (wrap uint64 index) count s
      end
  end.
