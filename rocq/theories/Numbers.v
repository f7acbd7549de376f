(** The remaining constants of numbers.hpp. *)
From Coq Require Import ZArith.
From Verif Require Import Base Fixed.
Open Scope Z_scope.

(** numbers.hpp:28-32 *)
Definition log2e_v (c : cfg) : res Z := from_fixed_num_value c 61 int64 0x2e2a8eca5705fc00.
(** numbers.hpp:35-39 *)
Definition log10e_v (c : cfg) : res Z := from_fixed_num_value c 61 int64 0xde5bd8a93728700.
(** numbers.hpp:42-46 *)
Definition inv_pi_v (c : cfg) : res Z := from_fixed_num_value c 61 int64 0xa2f9836e4e44180.
(** numbers.hpp:49-53 *)
Definition inv_sqrtpi_v (c : cfg) : res Z := from_fixed_num_value c 61 int64 0x120dd750429b6d00.
(** numbers.hpp:56-60 *)
Definition ln2_v (c : cfg) : res Z := from_fixed_num_value c 61 int64 0x162e42fefa39ef00.
(** numbers.hpp:63-67 *)
Definition ln10_v (c : cfg) : res Z := from_fixed_num_value c 61 int64 0x49aec6eed5545800.
(** numbers.hpp:70-74 *)
Definition sqrt2_v (c : cfg) : res Z := from_fixed_num_value c 61 int64 0x2d413cccfe779a00.
(** numbers.hpp:77-81 *)
Definition sqrt3_v (c : cfg) : res Z := from_fixed_num_value c 61 int64 0x376cf5d0b0995400.
(** numbers.hpp:84-88 *)
Definition inv_sqrt3_v (c : cfg) : res Z := from_fixed_num_value c 61 int64 0x1279a74590331c00.
(** numbers.hpp:91-95 *)
Definition egamma_v (c : cfg) : res Z := from_fixed_num_value c 61 int64 0x12788cfc6fb61900.
(** numbers.hpp:98-102 *)
Definition phi_v (c : cfg) : res Z := from_fixed_num_value c 61 int64 0x33c6ef372fe95000.
