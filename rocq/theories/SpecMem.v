(** Vocabulary for statements about objects in memory. *)
From Coq Require Import ZArith.
From Verif Require Import Base.
Open Scope Z_scope.

(** [p] (memory after, outcome) is what an assignment to location [l] of the result [r] may leave, starting from [s]:
    if [r] is a value, the command succeeds with a reference to [l], [l] holds that value and no other location changed;
    if [r] is an exception or undefined, that is the outcome and nothing has been written. *)
Definition assigned (s : Z -> Z) (l : Z) (r : res Z) (p : (Z -> Z) * res Z) : Prop :=
  match r with
  | Ok v => snd p = Ok l /\ fst p l = v /\ forall k, k <> l -> fst p k = s k
  | _ => snd p = r /\ forall k, fst p k = s k
  end.

(** the same for an operation whose result is the value [w] *)
Definition stepped (s : Z -> Z) (l : Z) (r : res (Z * Z)) (p : (Z -> Z) * res Z) : Prop :=
  match r with
  | Ok (w, v) => snd p = Ok w /\ fst p l = v /\ forall k, k <> l -> fst p k = s k
  | UB => snd p = UB /\ forall k, fst p k = s k
  | Throw e => snd p = Throw e /\ forall k, fst p k = s k
  | OutOfFuel => snd p = OutOfFuel /\ forall k, fst p k = s k
  end.
