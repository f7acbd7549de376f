(** Loops of a client of the library, built from the operators of fixed.hpp.  They are not repository code: they are the
    accumulations the operators are meant for, so that statements about whole computations can be made. *)
From Coq Require Import ZArith List.
From Verif Require Import Base Fixed.
Import ListNotations.
Open Scope Z_scope.

(** [for(auto x : l) acc += x;] (operator+=, fixed.hpp:306-310) *)
Fixpoint sum_loop (c : cfg) (acc : Z) (l : list Z) : res Z :=
  match l with
  | [] => Ok acc
  | x :: l => let* acc := fx_add_assign c acc x in sum_loop c acc l
  end.

(** [for(auto [x, y] : l) acc += x * y;] (operator*, fixed.hpp:335-347) *)
Fixpoint dot_loop (c : cfg) (acc : Z) (l : list (Z * Z)) : res Z :=
  match l with
  | [] => Ok acc
  | (x, y) :: l => let* p := fx_mul c x y in let* acc := fx_add_assign c acc p in dot_loop c acc l
  end.

(** Horner's rule, highest coefficient first: [for(auto a : l) acc = acc * x + a;] *)
Fixpoint horner_loop (c : cfg) (x acc : Z) (l : list Z) : res Z :=
  match l with
  | [] => Ok acc
  | a :: l => let* p := fx_mul c acc x in let* acc := fx_add c p a in horner_loop c x acc l
  end.
