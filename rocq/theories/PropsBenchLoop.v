(** C162, C163: the benchmark loops.  Only statements; the proofs are in BenchLoopProofs.v. *)
From Coq Require Import ZArith Bool List String.
From Verif Require Import Base Fixed TextIn Print Bench BenchLoop BenchLoopProofs.
Import ListNotations.
Open Scope Z_scope.

(** C162: n times x += y is x + n*y when that is representable, and undefined behaviour otherwise *)
Theorem C162_add_loop : forall c, wf c = true -> forall n x y, sgn (ct c) = true -> 32 <= bits (ct c) -> valid c x = true -> valid c y = true ->
  bench_loop (fx_add_assign c) n x y = if valid c (x + Z.of_nat n * y) then Ok (x + Z.of_nat n * y) else UB.
Proof. exact add_loop. Qed.
Theorem C162_sub_loop : forall c, wf c = true -> forall n x y, sgn (ct c) = true -> 32 <= bits (ct c) -> valid c x = true -> valid c y = true ->
  bench_loop (fx_sub_assign c) n x y = if valid c (x - Z.of_nat n * y) then Ok (x - Z.of_nat n * y) else UB.
Proof. exact sub_loop. Qed.
(** so the addition and subtraction benchmarks overflow at a fixed iteration *)
Theorem C162_add_benchmarks_refuted : forall n,
  f32_add n = (if Z.of_nat n <=? 28 then Ok (324403 + Z.of_nat n * 75047895) else UB) /\
  f32_minus n = (if Z.of_nat n <=? 28 then Ok (324403 - Z.of_nat n * 75047895) else UB) /\
  f64_add n = (if Z.of_nat n <=? 433834849 then Ok (4918338849341 + Z.of_nat n * 21260088115) else UB) /\
  f64_minus n = (if Z.of_nat n <=? 433835311 then Ok (4918338849341 - Z.of_nat n * 21260088115) else UB).
Proof. exact add_benches. Qed.
(** the others never do *)
Theorem C162_mul_loop : forall c, wf c = true -> cr c = false -> forall n x y, valid c x = true -> valid c y = true ->
  exists r, bench_loop (fx_mul_assign c) n x y = Ok r /\ valid c r = true.
Proof. exact mul_loop. Qed.
Theorem C162_div_loop : forall c, wf c = true -> cr c = false -> forall n x y, valid c x = true -> valid c y = true -> y <> 0 ->
  exists r, bench_loop (fx_div_assign c) n x y = Ok r /\ valid c r = true.
Proof. exact div_loop. Qed.
Theorem C162_mul_div_benchmarks : forall n,
  (exists r, f32_multiple n = Ok r) /\ (exists r, f64_multiple n = Ok r) /\ (exists r, f32_divide n = Ok r) /\ (exists r, f64_divide n = Ok r).
Proof. exact mul_div_benches. Qed.
(** reading the operands from the shipped file, and from a file that cannot be opened *)
Theorem C162_divide_file : forall fs n, fs (chars "input") = Some input_in -> exists r, f32_divide_file fs cache0 n = Ok r.
Proof. exact divide_file_shipped. Qed.
Theorem C162_divide_no_file_refuted : forall fs n, fs (chars "input") = None -> f32_divide_file fs cache0 (S n) = UB.
Proof. exact divide_file_missing. Qed.
Example C162_case : f32_add 28 = Ok 2101665463 /\ f32_add 29 = UB /\ f32_minus 29 = UB /\ f64_add 2 = Ok 4960859025571 /\
  f64_minus 3 = Ok 4854558584996 /\ f32_multiple 2 = Ok 202690023 /\ f64_multiple 13 = Ok (-450448236638441053).
Proof. repeat split; vm_compute; reflexivity. Qed.
Print Assumptions C162_add_loop.
Print Assumptions C162_sub_loop.
Print Assumptions C162_add_benchmarks_refuted.
Print Assumptions C162_mul_loop.
Print Assumptions C162_div_loop.
Print Assumptions C162_mul_div_benchmarks.
Print Assumptions C162_divide_file.
Print Assumptions C162_divide_no_file_refuted.

(** C163: dividing again and again by a number of at least 2 gives 0 after as many iterations as the type has bits *)
Theorem C163_div_loop_zero : forall c, wf c = true -> cr c = false -> forall n x y, valid c x = true -> valid c y = true ->
  2 * 2 ^ cf c <= y -> bits (ct c) <= Z.of_nat n -> bench_loop (fx_div_assign c) n x y = Ok 0.
Proof. exact div_loop_zero. Qed.
Theorem C163_div_benchmarks_refuted : forall n, f32_divide (2 + n) = Ok 0 /\ f64_divide (19 + n) = Ok 0.
Proof. exact div_benches_zero. Qed.
Example C163_case : f32_divide 1 = Ok 283 /\ f64_divide 18 = Ok 1 /\ f32_divide 100 = Ok 0.
Proof. repeat split; vm_compute; reflexivity. Qed.
Print Assumptions C163_div_loop_zero.
Print Assumptions C163_div_benchmarks_refuted.
