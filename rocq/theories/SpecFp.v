(** Specification vocabulary for floating-point numbers.  Independent of the model: no model file is imported here. *)
From Coq Require Import ZArith QArith Qabs.
From Verif Require Import Spec.
Open Scope Z_scope.

(** [q] is a binary floating-point number with [p] significant bits (no limit on the exponent) *)
Definition fp_rep (p : Z) (q : Q) : Prop :=
  exists a t k, 0 <= t /\ 0 <= k /\ Z.abs a < 2 ^ p /\ (q == qval k (a * 2 ^ t))%Q.
(** [r] is a number with [p] significant bits, and none is closer to [q] *)
Definition fp_nearest (p : Z) (q r : Q) : Prop :=
  fp_rep p r /\ forall r', fp_rep p r' -> (Qabs (r - q) <= Qabs (r' - q))%Q.
