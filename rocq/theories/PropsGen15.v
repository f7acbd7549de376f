(** Property theorem C194: the square of a root and the root of a square in every 64-bit instantiation. *)
From Coq Require Import ZArith Reals Lia Lra.
From Verif Require Import Base Fixed Math Spec SpecReal LogGen2 SinGen SqrtSq.
Open Scope R_scope.

(** 5/65536 is the stop criterion of the iteration *)
Theorem C194_square_of_root : forall c m, wf c = true -> sgn (ct c) = true -> bits (ct c) = 64%Z -> cr c = false -> (3 <= cf c <= 59)%Z ->
  (0 < m < 2 ^ 62)%Z -> let x := rval (cf c) m in let u := ulp (cf c) in
  exists r q, fx_sqrt c m = Ok r /\ fx_mul c r r = Ok q /\
    - (u + 2 * u * sqrt x) <= rval (cf c) q - x <= 5 / 65536 + u + 4 * u * (sqrt x + u) + 5e-16 * x.
Proof. intros c m W S B R F. assert (H : sin_cfg c) by (repeat split; auto; lia). exact (square_of_root c H B m). Qed.
(** the conditions on m say that the square is at least one unit and below half of the range *)
Theorem C194_root_of_square : forall c m, wf c = true -> sgn (ct c) = true -> bits (ct c) = 64%Z -> cr c = false -> (3 <= cf c <= 59)%Z ->
  (2 ^ cf c <= m * m)%Z -> (m * m < 2 ^ 62 * 2 ^ cf c)%Z -> let x := rval (cf c) m in let u := ulp (cf c) in
  exists p r, fx_mul c m m = Ok p /\ fx_sqrt c p = Ok r /\
    - (u + 2 * u * Rabs x) <= rval (cf c) r * rval (cf c) r - x * x <= 5 / 65536 + u + 4 * u * (Rabs x + u) + 5e-16 * (x * x).
Proof. intros c m W S B R F. assert (H : sin_cfg c) by (repeat split; auto; lia). exact (root_of_square c H B m). Qed.
(** 2 and -3/2 with 40 fraction bits *)
Example C194_case : wf Q40 = true /\ fx_sqrt Q40 (2 ^ 41) = Ok 1554946591242%Z /\ fx_mul Q40 1554946591242 1554946591242 = Ok 2199029860653%Z /\
  fx_mul Q40 (-3 * 2 ^ 39) (-3 * 2 ^ 39) = Ok 2473901162496%Z /\ fx_sqrt Q40 2473901162496 = Ok 1649267441664%Z /\ (2 ^ cf Q40 <= (-3 * 2 ^ 39) * (-3 * 2 ^ 39))%Z.
Proof. vm_compute. repeat split; discriminate. Qed.
Print Assumptions C194_square_of_root.
Print Assumptions C194_root_of_square.
