(** C147-C150: the accuracy tester of the benchmarks.  Only statements; the proofs are in AccuracyProofs.v. *)
From Coq Require Import ZArith QArith Qabs Bool List Reals Lia Lra Sorted.
From Verif Require Import Base Fixed TextIn Math Spec SpecAccuracy Accuracy AccuracyProofs.
Import ListNotations.
Open Scope Z_scope.

(** C147 what is reported, for any function [g] under test: the largest and the mean absolute and relative errors, not of the
    values of [g] but of their integer parts *)
Theorem C147_report g u pts rep : (forall x v, g x = Ok v -> valid F64 v = true) -> pts <> [] -> test_subinterval g u pts = Ok rep ->
  exists rs, Forall2 (fun p i => exists x v, literal F64 (fst p) u = Ok x /\ g x = Ok v /\ is_trunc 0 (qval 32 v) i) pts rs /\
    let l := List.combine rs (map snd pts) in
    is_largest (r_max rep) (abs_errors l) /\ is_mean (r_avg rep) (abs_errors l) /\
    is_largest (r_max_rel rep) (rel_errors l) /\ is_mean (r_avg_rel rep) (rel_errors l).
Proof. exact (report_thm g u pts rep). Qed.
Print Assumptions C147_report.
(** C147 so two functions whose values at the test points lie strictly between -1 and 1 get the same report *)
Theorem C147_blind g g' u u' pts :
  Forall (fun p => exists x v, literal F64 (fst p) u = Ok x /\ g x = Ok v /\ valid F64 v = true /\ (Qabs (qval 32 v) < 1)%Q) pts ->
  Forall (fun p => exists x v, literal F64 (fst p) u' = Ok x /\ g' x = Ok v /\ valid F64 v = true /\ (Qabs (qval 32 v) < 1)%Q) pts ->
  test_subinterval g u pts = test_subinterval g' u' pts.
Proof. exact (blind g g' u u' pts). Qed.
Print Assumptions C147_blind.
(** C147 as stated is false: at 0.5, with any reference value within 10^-9 of sin 0.5, the value of sin is within 10^-4 of
    the reference value and the report says the error is more than 0.479 *)
Theorem C147_report_refuted : forall ref, (Qabs (ref - (479425538604 # 1000000000000)) <= 1 # 1000000000)%Q ->
  exists x v rep, literal F64 [48; 46; 53; 48; 48; 48; 48; 48] 0 = Ok x /\ fx_sin F64 x = Ok v /\
    test_subinterval (fx_sin F64) 0 [([48; 46; 53; 48; 48; 48; 48; 48], ref)] = Ok rep /\
    (Qabs (qval 32 v - ref) < 1 # 10000)%Q /\ (479 # 1000 < r_max rep)%Q.
Proof. exact report_refuted. Qed.
Print Assumptions C147_report_refuted.

(** C148 a label that is a multiple of pi is a reduced fraction and is right ... *)
Theorem C148_pi v n d : format_as_pi v = LPi n d ->
  (1 <= n <= 6)%Z /\ (1 <= d <= 6)%Z /\ Z.gcd n d = 1%Z /\ (Rabs (v - IZR n / IZR d * PI) < 1 / 10000000000)%R.
Proof. exact (label_pi v n d). Qed.
Print Assumptions C148_pi.
(** ... and every multiple of pi with numerator and denominator up to 6 gets such a label *)
Theorem C148_found v n d : v <> 0%R -> (1 <= n <= 6)%Z -> (1 <= d <= 6)%Z -> (Rabs (v - IZR n / IZR d * PI) < 1 / 10000000000)%R ->
  exists n' d', format_as_pi v = LPi n' d' /\ (n * d' = n' * d)%Z.
Proof. exact (label_found v n d). Qed.
Print Assumptions C148_found.
(** the last loop of the function never finds anything *)
Theorem C148_dead v n : format_as_pi v <> LTwoPi n.
Proof. exact (label_dead v n). Qed.
Print Assumptions C148_dead.
Example C148_case : exists n d, format_as_pi (2 / 4 * PI) = LPi n d /\ (2 * d = n * 4)%Z.
Proof.
  apply label_found; [|lia|lia|].
  - assert (0 < PI)%R by apply PI_RGT_0. lra.
  - replace (2 / 4 * PI - 2 / 4 * PI)%R with 0%R by ring. rewrite Rabs_R0. lra.
Qed.

(** C149 [add] is the addition of the machine; all that is needed is that it gets at least half way.  The loop ends, the
    intervals follow one another without a gap, begin at the start and end within 10^-10 of the stop. *)
Theorem C149_tile add size start stop n : (0 < size)%Q -> (start <= stop)%Q ->
  (forall c, c < stop -> c + size * (1 # 2) <= add c size)%Q ->
  (stop - start <= inject_Z (Z.of_nat n) * (size * (1 # 2)))%Q ->
  exists l z, intervals n add size stop start = Ok l /\ chain start l z /\ (stop - (1 # 10000000000) <= z)%Q /\ (z <= stop)%Q /\
    (forall a b, In (a, b) l -> b <= stop)%Q.
Proof. exact (intervals_tile add size start stop n). Qed.
Print Assumptions C149_tile.
(** with size 0 it does not end *)
Theorem C149_stuck start stop fuel : (start < stop - (1 # 10000000000))%Q -> intervals fuel Qplus 0 stop start = OutOfFuel.
Proof. exact (intervals_stuck stop start fuel). Qed.
Print Assumptions C149_stuck.
Example C149_case : intervals 10 Qplus (1 # 2) 2 0 = Ok [(0, 1 # 2); (1 # 2, 4 # 4); (4 # 4, 12 # 8); (12 # 8, 32 # 16)]%Q.
Proof. vm_compute. reflexivity. Qed.

(** C150 the points added to the random ones: in increasing order at least 10^-10 apart, within 10^-10 of the interval, and
    close to both ends, to the three quarter points, and to each special angle in the interval *)
Theorem C150_points random trig start stop : (start <= stop)%Q ->
  exists l, test_points random trig start stop = random ++ l /\
  StronglySorted (fun a b => a + (1 # 10000000000) <= b)%Q l /\
  (forall y, In y l -> start - (1 # 10000000000) <= y <= stop + (1 # 10000000000))%Q /\
  (forall y, (y = start \/ y = stop \/ In y trig /\ start - (1 # 10000000000) <= y <= stop + (1 # 10000000000))%Q ->
     exists z, In z l /\ (z <= y < z + (1 # 10000000000))%Q) /\
  (forall k, (0 <= k <= 4) -> exists z, In z l /\ (z <= start + (stop - start) * (k # 4) < z + (1 # 10000000000))%Q).
Proof. exact (points_all random trig start stop). Qed.
Print Assumptions C150_points.
(** neighbours that are closer than 10^-10 in a chain are not all merged into one *)
Example C150_case : test_points [7]%Q [1; 1 + (6 # 100000000000); 1 + (12 # 100000000000); 5]%Q 0 4 =
  [7; 0; 0 + (4 - 0) * (1 # 4); 1 + (12 # 100000000000); (0 + 4) / 2; 0 + (4 - 0) * (3 # 4); 4]%Q.
Proof. vm_compute. reflexivity. Qed.
