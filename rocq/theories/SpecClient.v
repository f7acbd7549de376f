(** Exact values of the client loops, independent of the model. *)
From Coq Require Import ZArith QArith Qabs List.
From Verif Require Import Spec.
Import ListNotations.

Fixpoint qsum (f : Z) (l : list Z) : Q :=
  match l with [] => 0 | x :: l => qval f x + qsum f l end.
Fixpoint qdot (f : Z) (l : list (Z * Z)) : Q :=
  match l with [] => 0 | (x, y) :: l => qval f x * qval f y + qdot f l end.
(** sum of the magnitudes of the products *)
Fixpoint qdot_abs (f : Z) (l : list (Z * Z)) : Q :=
  match l with [] => 0 | (x, y) :: l => Qabs (qval f x * qval f y) + qdot_abs f l end.
(** value at [x] of the polynomial with coefficients [a] followed by [l], highest first *)
Fixpoint qpoly (x a : Q) (l : list Q) : Q :=
  match l with [] => a | b :: l => qpoly x (a * x + b) l end.
Fixpoint qsum_abs (f : Z) (l : list Z) : Q :=
  match l with [] => 0 | x :: l => Qabs (qval f x) + qsum_abs f l end.
(** [q] lies between the least and the greatest number of the type: its floor and its truncation do not overflow *)
Definition in_span (w : Z) (s : bool) (f : Z) (q : Q) : Prop := (qval f (lo w s) <= q)%Q /\ (q < qval f (hi w s + 1))%Q.
