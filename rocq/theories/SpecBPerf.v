(** Notions used in the statements about bench_perf.cpp (C164-C166).  Independent of the model. *)
From Coq Require Import ZArith QArith Qabs Bool List.
Import ListNotations.
Open Scope Q_scope.
(** the errors |c - r| of pairs (computed, reference) and, for the references that are not zero, |c - r| / |r| *)
Definition errors (l : list (Q * Q)) : list Q := map (fun p => Qabs (fst p - snd p)) l.
Definition relative_errors (l : list (Q * Q)) : list Q :=
  map (fun p => Qabs (fst p - snd p) / Qabs (snd p)) (filter (fun p => negb (Qeq_bool (snd p) 0)) l).
