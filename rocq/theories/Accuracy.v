(** Model of benchmark/bench_accuracy.cpp: the statistics of test_subinterval, the interval loop of run_tests and the labels.
    Simplified: the statistics, the interval bounds, the points and the labels are computed in exact arithmetic instead of
    double; the random points are given.  Not modelled: the output files and the console.  No proofs in this file. *)
From Coq Require Import ZArith QArith Qabs Bool List Reals.
From Verif Require Import Base Fixed TextIn.
Import ListNotations.
Open Scope Z_scope.

(** std::max(a, b) *)
Definition qmax (a b : Q) : Q := if Qle_bool b a then a else b.

(** bench_accuracy.cpp:181-183 and the two maxima of one implementation, 165-168 *)
Record stats := { max_error : Q; error_sum : Q; max_rel_error : Q; rel_error_sum : Q; rel_samples : Z }.
Definition stats0 : stats := {| max_error := 0; error_sum := 0; max_rel_error := 0; rel_error_sum := 0; rel_samples := 0 |}.

(** A test point: the text std::to_string(x) and the reference value std::sin(x).
    bench_accuracy.cpp:198-202: the text is read as an fixed64 literal (the result of a failed parse would be
    uninitialised; [uninit]), the function is applied and its result cast to double. *)
Definition measured (g : Z -> res Z) (uninit : Z) (text : list Z) : res Z :=
  let* x := literal F64 text uninit in
  let* v := g x in
  fx_to_float F64 v.
(** bench_accuracy.cpp:207-216 (and 219-228, 231-240) *)
Definition record_point (s : stats) (r : Z) (ref : Q) : stats :=
  let err := Qabs (inject_Z r - ref) in
  let s := {| max_error := qmax (max_error s) err; error_sum := error_sum s + err; max_rel_error := max_rel_error s;
              rel_error_sum := rel_error_sum s; rel_samples := rel_samples s |} in
  if Qeq_bool ref 0 then s
  else
    let rel := (err / Qabs ref)%Q in
    {| max_error := max_error s; error_sum := error_sum s; max_rel_error := qmax (max_rel_error s) rel;
       rel_error_sum := rel_error_sum s + rel; rel_samples := rel_samples s + 1 |}.
(** bench_accuracy.cpp:193-241 *)
Fixpoint record_points (g : Z -> res Z) (uninit : Z) (s : stats) (pts : list (list Z * Q)) : res stats :=
  match pts with
  | [] => Ok s
  | (text, ref) :: r => let* v := measured g uninit text in record_points g uninit (record_point s v ref) r
  end.
(** bench_accuracy.cpp:244-254.  test_points is never empty. *)
Record report := { r_max : Q; r_avg : Q; r_max_rel : Q; r_avg_rel : Q }.
Definition test_subinterval (g : Z -> res Z) (uninit : Z) (pts : list (list Z * Q)) : res report :=
  let* s := record_points g uninit stats0 pts in
  Ok {| r_max := max_error s;
        r_avg := error_sum s / inject_Z (Z.of_nat (length pts));
        r_max_rel := max_rel_error s;
        r_avg_rel := if 0 <? rel_samples s then rel_error_sum s / inject_Z (rel_samples s) else 0 |}.

(** bench_accuracy.cpp:118-149, the points added to the random ones.  [trig] are the 17 special angles of lines 127-132.
    std::sort is insertion sort here (its result is determined up to equal elements).  std::unique keeps an element if it
    is not equivalent to the last one kept: the relation given is not an equivalence, so the standard gives no meaning to
    the call; this is what the implementations do. *)
Fixpoint qinsert (x : Q) (l : list Q) : list Q := match l with [] => [x] | y :: r => if Qle_bool x y then x :: y :: r else y :: qinsert x r end.
Definition qsort (l : list Q) : list Q := fold_right qinsert [] l.
Fixpoint unique_from (last : Q) (l : list Q) : list Q :=
  match l with
  | [] => []
  | x :: r => if Qle_bool (1 # 10000000000) (Qabs (last - x)) then x :: unique_from x r else unique_from last r
  end.
Definition unique (l : list Q) : list Q := match l with [] => [] | x :: r => x :: unique_from x r end.
Definition critical_points (trig : list Q) (start stop : Q) : list Q :=
  [start; stop; (start + stop) / 2; start + (stop - start) * (1 # 4); start + (stop - start) * (3 # 4)]%Q ++
  filter (fun pt => Qle_bool (start - (1 # 10000000000)) pt && Qle_bool pt (stop + (1 # 10000000000))) trig.
(** bench_accuracy.cpp:105-152 *)
Definition test_points (random : list Q) (trig : list Q) (start stop : Q) : list Q :=
  random ++ unique (qsort (critical_points trig start stop)).

(** bench_accuracy.cpp:272-286.  [add] is the addition current + subinterval_size. *)
Fixpoint intervals (fuel : nat) (add : Q -> Q -> Q) (size stop current : Q) : res (list (Q * Q)) :=
  if Qle_bool (stop - (1 # 10000000000)) current then Ok []
  else match fuel with
  | O => OutOfFuel
  | S k =>
      let next := let n := add current size in if Qle_bool n stop then n else stop in
      let* r := intervals k add size stop next in Ok ((current, next) :: r)
  end.

(** bench_accuracy.cpp:67-96 format_as_pi *)
Inductive label := LZero | LPi (n d : Z) | LTwoPi (n : Z) | LNumber.
Definition near (a b : R) : bool := if Rlt_dec (Rabs (a - b)) (1 / 10000000000) then true else false.
Definition fractions : list (Z * Z) := flat_map (fun n => map (fun d => (n, d)) [1; 2; 3; 4; 5; 6]) [1; 2; 3; 4; 5; 6].
Definition format_as_pi (v : R) : label :=
  if Req_EM_T v 0 then LZero
  else match find (fun nd => near v (IZR (fst nd) / IZR (snd nd) * PI)) fractions with
       | Some (n, d) => LPi n d
       | None => match find (fun n => near v (IZR n * 2 * PI)) [1; 2; 3] with
                 | Some n => LTwoPi n
                 | None => LNumber
                 end
       end.
