(** Model of the loops of benchmark/benchmark.cpp that change their operand.  No proofs in this file. *)
From Coq Require Import ZArith List String.
From Verif Require Import Base Fixed TextIn Print Bench.
Import ListNotations.
Open Scope Z_scope.

(** [for(auto _ : state) identity(fp1 op= fp2);] with [n] iterations; f32_identity and f64_identity return their argument
    (bench.cpp:6-14) *)
Fixpoint bench_loop (op : Z -> Z -> res Z) (n : nat) (fp1 fp2 : Z) : res Z :=
  match n with
  | O => Ok fp1
  | S n => let* fp1 := op fp1 fp2 in bench_loop op n fp1 fp2
  end.

(** "..."_f32 and "..."_f64 as local initialisers *)
Definition lit (c : cfg) (s : string) : res Z := literal c (chars s) 0.
Definition bench (c : cfg) (op : cfg -> Z -> Z -> res Z) (a b : string) (n : nat) : res Z :=
  let* fp1 := lit c a in
  let* fp2 := lit c b in
  bench_loop (op c) n fp1 fp2.

(** benchmark.cpp:50-65, the branch without EIRIN_BENCHMARK_FILE_INPUT_MODE *)
Definition f32_divide := bench F32 fx_div_assign "4.95" "1145.14".
(** benchmark.cpp:67-82 *)
Definition f32_multiple := bench F32 fx_mul_assign "4.95" "1145.14".
(** benchmark.cpp:84-92 *)
Definition f32_add := bench F32 fx_add_assign "4.95" "1145.14".
(** benchmark.cpp:94-102 *)
Definition f32_minus := bench F32 fx_sub_assign "4.95" "1145.14".
(** benchmark.cpp:243-251; the numeric literal 1145.14_f64 is parsed like the string *)
Definition f64_divide := bench F64 fx_div_assign "1145.14" "4.95".
(** benchmark.cpp:253-261 *)
Definition f64_multiple := bench F64 fx_mul_assign "1145.14" "4.95".
(** benchmark.cpp:263-271 *)
Definition f64_add := bench F64 fx_add_assign "1145.14" "4.95".
(** benchmark.cpp:273-281 *)
Definition f64_minus := bench F64 fx_sub_assign "1145.14" "4.95".

(** benchmark.cpp:50-65 with EIRIN_BENCHMARK_FILE_INPUT_MODE; [fs] gives the files, [st] the cache of get_input *)
Definition f32_divide_file (fs : str -> option str) (st : cache) (n : nat) : res Z :=
  let '(v1, st) := get_input (fs (chars "input")) st (chars "input") (chars "test_divide_1") in
  let '(v2, st) := get_input (fs (chars "input")) st (chars "input") (chars "test_divide_2") in
  let* fp1 := literal F32 v1 0 in
  let* fp2 := literal F32 v2 0 in
  bench_loop (fx_div_assign F32) n fp1 fp2.
