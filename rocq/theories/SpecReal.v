(** Specification vocabulary over the reals.  Independent of the model: no model file is imported here. *)
From Coq Require Import ZArith Reals.
Open Scope R_scope.

(** The real number denoted by the raw integer [m] with [f] fraction bits. *)
Definition rval (f m : Z) : R := IZR m / IZR (2 ^ f).
(** one unit in the last place *)
Definition ulp (f : Z) : R := / IZR (2 ^ f).
(** base-2 and base-10 logarithms *)
Definition log2r (x : R) : R := ln x / ln 2.
Definition log10r (x : R) : R := ln x / ln 10.
