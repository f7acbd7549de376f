(** Specification vocabulary.  Independent of the model: no model file is imported here. *)
From Coq Require Import ZArith QArith Bool.
Open Scope Z_scope.

(** 2^f as a positive *)
Definition pow2p (f : Z) : positive := Z.to_pos (2 ^ f).

(** The rational number denoted by the raw integer [m] with [f] fraction bits. *)
Definition qval (f m : Z) : Q := m # pow2p f.

(** [m] ulps is the floor / the truncation toward zero / the nearest-or-tie of the rational [q],
    at resolution 2^-f. *)
Definition is_floor (f : Z) (q : Q) (m : Z) : Prop :=
  (qval f m <= q)%Q /\ (q < qval f (m + 1))%Q.
Definition is_ceil (f : Z) (q : Q) (m : Z) : Prop :=
  (qval f (m - 1) < q)%Q /\ (q <= qval f m)%Q.
Definition is_trunc (f : Z) (q : Q) (m : Z) : Prop :=
  ((0 <= q)%Q -> is_floor f q m) /\ ((q <= 0)%Q -> is_ceil f q m).
(** within half an ulp *)
Definition is_nearest (f : Z) (q : Q) (m : Z) : Prop :=
  (qval (f + 1) (2 * m - 1) <= q)%Q /\ (q <= qval (f + 1) (2 * m + 1))%Q.
(** nearest, ties away from zero *)
Definition is_nearest_away (f : Z) (q : Q) (m : Z) : Prop :=
  ((0 <= q)%Q -> (qval (f + 1) (2 * m - 1) <= q)%Q /\ (q < qval (f + 1) (2 * m + 1))%Q) /\
  ((q <= 0)%Q -> (qval (f + 1) (2 * m - 1) < q)%Q /\ (q <= qval (f + 1) (2 * m + 1))%Q).

(** [q] is a multiple of 1 (an integer) *)
Definition is_int (q : Q) : Prop := exists n : Z, (q == inject_Z n)%Q.

(** The range of a [w]-bit integer type. *)
Definition lo (w : Z) (s : bool) : Z := if s then - 2 ^ (w - 1) else 0.
Definition hi (w : Z) (s : bool) : Z := if s then 2 ^ (w - 1) - 1 else 2 ^ w - 1.
Definition fits (w : Z) (s : bool) (m : Z) : Prop := lo w s <= m <= hi w s.
(** The rational [q] has an exact representation with [f] fraction bits in a [w]-bit type. *)
Definition representable (w : Z) (s : bool) (f : Z) (q : Q) : Prop :=
  exists m, fits w s m /\ (qval f m == q)%Q.
(** Congruence modulo 2^w: "wraps". *)
Definition cong (w a b : Z) : Prop := exists k, a = b + k * 2 ^ w.
