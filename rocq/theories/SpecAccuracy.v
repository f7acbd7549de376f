(** Notions used in the statements about the accuracy tester (C147-C150).  Independent of the model. *)
From Coq Require Import ZArith QArith Qabs Bool List.
Import ListNotations.
Open Scope Z_scope.

(** the errors |i - ref| and, for the reference values that are not zero, |i - ref| / |ref| *)
Definition abs_errors (l : list (Z * Q)) : list Q := map (fun p => Qabs (inject_Z (fst p) - snd p)) l.
Definition rel_errors (l : list (Z * Q)) : list Q :=
  map (fun p => (Qabs (inject_Z (fst p) - snd p) / Qabs (snd p))%Q) (filter (fun p => negb (Qeq_bool (snd p) 0)) l).
(** [m] is the largest and [a] the mean of the numbers in [l]; both are 0 if there are none *)
Definition is_largest (m : Q) (l : list Q) : Prop :=
  (forall e, In e l -> e <= m)%Q /\ ((exists e, In e l /\ m == e)%Q \/ l = [] /\ (m == 0)%Q).
Definition is_mean (a : Q) (l : list Q) : Prop :=
  (a * inject_Z (Z.of_nat (length l)) == fold_right Qplus 0 l)%Q /\ (l = [] -> a == 0)%Q.

(** intervals that follow one another from [a] to [z] without a gap, none of them empty *)
Inductive chain : Q -> list (Q * Q) -> Q -> Prop :=
| ch_nil a : chain a [] a
| ch_cons a b l z : (a < b)%Q -> chain b l z -> chain a ((a, b) :: l) z.
