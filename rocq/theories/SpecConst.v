(** Specification of Euler's constant.  Independent of the model: no model file is imported here. *)
From Coq Require Import Reals.
Open Scope R_scope.

(** [g] is the limit of 1 + 1/2 + ... + 1/n - ln n, with n = k + 1 *)
Definition is_euler_gamma (g : R) : Prop := Un_cv (fun k => sum_f_R0 (fun i => / INR (S i)) k - ln (INR (S k))) g.
