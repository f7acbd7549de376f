(** Property theorems C116-C119: whole computations built from the operators.  Statements only; proofs are in ClientProofs.v and
    PowAcc.v. *)
From Coq Require Import ZArith QArith Qabs List Permutation.
From Verif Require Import Base Fixed Math Spec Client SpecClient ClientProofs PowAcc.
Import ListNotations.
Open Scope Z_scope.

(** C116 *)
Theorem C116_sum_exact : forall c l acc, wf c = true -> valid c acc = true -> Forall (fun x => valid c x = true) l ->
  (forall k, representable (bits (ct c)) (sgn (ct c)) (cf c) (qval (cf c) acc + qsum (cf c) (firstn k l))) ->
  exists r, sum_loop c acc l = Ok r /\ valid c r = true /\ (qval (cf c) r == qval (cf c) acc + qsum (cf c) l)%Q.
Proof. exact (fun c l acc W => sum_exact c W l acc). Qed.
Theorem C116_sum_order : forall c l l' acc r r', wf c = true -> valid c acc = true -> Forall (fun x => valid c x = true) l ->
  Permutation l l' -> sum_loop c acc l = Ok r -> sum_loop c acc l' = Ok r' -> r = r'.
Proof. exact (fun c l l' acc r r' W => sum_order c W l l' acc r r'). Qed.
(** 0.5 + 1.25 - 3 in fixed32; the same in another order *)
Example C116_case : sum_loop F32 0 [32768; 81920; -196608] = Ok (-81920) /\ sum_loop F32 0 [-196608; 32768; 81920] = Ok (-81920).
Proof. split; vm_compute; reflexivity. Qed.
(** partial sums that leave the range are undefined behaviour, so the hypothesis is needed *)
Example C116_range : sum_loop F32 2147483647 [1; -1] = UB.
Proof. vm_compute. reflexivity. Qed.

(** C117 *)
Theorem C117_dot_accuracy : forall c l, wf c = true -> cr c = false ->
  Forall (fun p => valid c (fst p) = true /\ valid c (snd p) = true) l ->
  (qdot_abs (cf c) l + qval (cf c) (Z.of_nat (length l)) <= qval (cf c) (hi (bits (ct c)) (sgn (ct c))))%Q ->
  exists r, dot_loop c 0 l = Ok r /\ valid c r = true /\
  (qval (cf c) r <= qdot (cf c) l)%Q /\ (qdot (cf c) l <= qval (cf c) (r + Z.of_nat (length l)))%Q.
Proof. exact (fun c l W N => dot_accuracy c W N l). Qed.
(** 1.5*0.3 + (-2)*0.7 with 0.3, 0.7 rounded down *)
Example C117_case : dot_loop F32 0 [(98304, 19660); (-131072, 45875)] = Ok (-62260).
Proof. vm_compute. reflexivity. Qed.

(** C118 *)
Theorem C118_horner_accuracy : forall c x a l, wf c = true -> cr c = false -> (sgn (ct c) = true -> cf c <= bits (ct c) - 2) ->
  valid c x = true -> (Qabs (qval (cf c) x) <= 1)%Q -> Forall (fun a => valid c a = true) (a :: l) ->
  (qsum_abs (cf c) (a :: l) <= qval (cf c) (hi (bits (ct c)) (sgn (ct c))))%Q ->
  exists r, horner_loop c x a l = Ok r /\ valid c r = true /\
  (Qabs (qval (cf c) r - qpoly (qval (cf c) x) (qval (cf c) a) (map (qval (cf c)) l)) <= qval (cf c) (Z.of_nat (length l)))%Q.
Proof. exact (fun c x a l W N S => horner_accuracy c W N S x a l). Qed.
(** 2x^2 - 3x + 0.25 at x = -0.75 *)
Example C118_case : horner_loop F32 (-49152) 131072 [-196608; 16384] = Ok 237568.
Proof. vm_compute. reflexivity. Qed.

(** C119 *)
Theorem C119_pow_unit : forall c t b n, wf c = true -> cr c = false -> (sgn (ct c) = true -> cf c <= bits (ct c) - 2) ->
  ity_ok t = true -> in_range t n = true -> valid c b = true -> 0 <= n -> (Qabs (qval (cf c) b) <= 1)%Q ->
  exists m, fx_pow_int c t b n = Ok m /\ valid c m = true /\
  (Qabs (qval (cf c) m - qval (cf c) b ^ n) <= inject_Z n * qval (cf c) 1)%Q.
Proof. exact (fun c t b n W N S => pow_unit_accuracy c W N S t b n). Qed.
Theorem C119_pow_ge1 : forall c t b n, wf c = true -> cr c = false -> (sgn (ct c) = true -> cf c <= bits (ct c) - 2) ->
  ity_ok t = true -> in_range t n = true -> valid c b = true -> 0 < n -> (1 <= qval (cf c) b)%Q ->
  (qval (cf c) b ^ n <= qval (cf c) (hi (bits (ct c)) (sgn (ct c))))%Q ->
  exists m, fx_pow_int c t b n = Ok m /\ valid c m = true /\ (qval (cf c) m <= qval (cf c) b ^ n)%Q /\
  (qval (cf c) b ^ n - qval (cf c) m <= inject_Z n * qval (cf c) b ^ (n - 1) * qval (cf c) 1)%Q.
Proof. exact (fun c t b n W N S => pow_ge1_accuracy c W N S t b n). Qed.
(** (-0.9)^7 and 1.1^20 in fixed32 *)
Example C119_case : fx_pow_int F32 int32 (-58982) 7 = Ok (-31344) /\ fx_pow_int F32 int32 72090 20 = Ok 440906.
Proof. split; vm_compute; reflexivity. Qed.
Print Assumptions C116_sum_exact.
Print Assumptions C116_sum_order.
Print Assumptions C117_dot_accuracy.
Print Assumptions C118_horner_accuracy.
Print Assumptions C119_pow_unit.
Print Assumptions C119_pow_ge1.
