(** C142, C143: the benchmark's key=value inputs.  Only statements; the proofs are in BenchProofs.v. *)
From Coq Require Import ZArith Bool List.
From Verif Require Import Bench SpecBench BenchProofs.
Import ListNotations.
Open Scope Z_scope.

(** C142 while only one file is used, every key gets the value of its last line in that file, and "0" if it has none *)
Theorem C142_one_file fs i c : fs i = Some c ->
  forall keys, Forall2 (file_says c) keys (fst (requests fs cache0 (map (fun k => (i, k)) keys))).
Proof. exact (one_spec fs i c). Qed.
Print Assumptions C142_one_file.

(** C142 after any requests, if no other file asked for so far has a line for the key *)
Theorem C142_own_key fs l i k c : fs i = Some c ->
  (forall j cj lj v, In j (map fst l) -> j <> i -> fs j = Some cj -> (exists ls, file_lines cj ls /\ In lj ls) -> ~ defines lj k v) ->
  file_says c k (fst (get_input (fs i) (snd (requests fs cache0 l)) i k)).
Proof. exact (own_spec fs l i k c). Qed.
Print Assumptions C142_own_key.
(** a file says one thing about a key *)
Theorem C142_says_one content key v v' : file_says content key v -> file_says content key v' -> v = v'.
Proof. exact (says_unique content key v v'). Qed.
Print Assumptions C142_says_one.

(** C142 in general: all files asked for so far count as one, in the order in which they were first asked for, and the last
    line for the key wins; only a first request that finds no file answers "0" without looking *)
Theorem C142_exact fs l i k :
  let st := snd (requests fs cache0 l) in
  (In i (map fst l) \/ fs i <> None ->
   exists ls o, names_lines fs (firsts (map fst l ++ [i])) ls /\ last_def k ls o /\ fst (get_input (fs i) st i k) = answer o) /\
  (~ In i (map fst l) -> fs i = None -> fst (get_input (fs i) st i k) = answer None).
Proof. exact (exact_spec fs l i k). Qed.
Print Assumptions C142_exact.

(** C142 as stated is false: a file whose name is given can be answered with another file's value *)
Theorem C142_get_refuted : exists fs l i k c, fs i = Some c /\ In i (map fst l) /\
  ~ file_says c k (fst (get_input (fs i) (snd (requests fs cache0 l)) i k)).
Proof. exact get_refuted. Qed.
Print Assumptions C142_get_refuted.

(** a.in is x=1, b.in is x=2: the requests (a,x), (b,x), (a,x) answer 1, 2, 2 *)
Example C142_case : fs2 [97] = Some [120; 61; 49; 10] /\
  fst (requests fs2 cache0 [([97], [120]); ([98], [120]); ([97], [120])]) = [[49]; [50]; [50]].
Proof. exact two_files. Qed.

(** C143 the same request twice in a row: the second answer and the cache are those of the first, whatever the file is by
    then, if the name had been asked for before or its file could be opened *)
Theorem C143_repeat fs l i k file file' : In i (map fst l) \/ file <> None ->
  let r := get_input file (snd (requests fs cache0 l)) i k in
  fst (get_input file' (snd r) i k) = fst r /\ snd (get_input file' (snd r) i k) = snd r.
Proof. exact (repeat_history fs l i k file file'). Qed.
Print Assumptions C143_repeat.

(** C143 as stated is false: with no file to open the first answer is "0" and the second is another file's value *)
Theorem C143_repeat_refuted : exists fs l i k, let st := snd (requests fs cache0 l) in
  fst (requests fs st [(i, k); (i, k)]) = [[48]; [49]] /\ fs i = None.
Proof. exact repeat_refuted. Qed.
Print Assumptions C143_repeat_refuted.
