(** The modifying operators of fixed.hpp as commands on objects in memory.  An object is a location; [this] and the argument
    [other] (a const reference) may be the same location, and every mention of [m_value] or [other.m_value] in the source is
    a read at the moment it is evaluated.  A command gives the memory after it and its outcome, so what is left behind
    when an exception leaves the function is visible. *)
From Coq Require Import ZArith.
From Verif Require Import Base Fixed.
Open Scope Z_scope.

Definition mem := Z -> Z.
Definition cmd (A : Type) := mem -> mem * res A.
Definition ret {A} (a : A) : cmd A := fun s => (s, Ok a).
Definition seq {A B} (m : cmd A) (k : A -> cmd B) : cmd B := fun s =>
  match m s with
  | (s, Ok a) => k a s
  | (s, UB) => (s, UB)
  | (s, Throw e) => (s, Throw e)
  | (s, OutOfFuel) => (s, OutOfFuel)
  end.
Definition rd (l : Z) : cmd Z := fun s => (s, Ok (s l)).
Definition wr (l v : Z) : cmd unit := fun s => (fun k => if k =? l then v else s k, Ok tt).
(** an expression without side effects *)
Definition pure {A} (r : res A) : cmd A := fun s => (s, r).
Definition throw {A} (e : exn) : cmd A := fun s => (s, Throw e).
Notation "x <- m ;; k" := (seq m (fun x => k)) (at level 61, m at next level, right associativity).

(** fixed.hpp:306-310, 323-327 [m_value += other.m_value; return *this;].  The result of the functions returning
    [fixed_num&] is the location. *)
Definition o_add_assign (c : cfg) (this other : Z) : cmd Z :=
  a <- rd this ;; b <- rd other ;; v <- pure (c_add (ct c) (ct c) a b) ;; _ <- wr this (wrap (ct c) v) ;; ret this.
Definition o_sub_assign (c : cfg) (this other : Z) : cmd Z :=
  a <- rd this ;; b <- rd other ;; v <- pure (c_sub (ct c) (ct c) a b) ;; _ <- wr this (wrap (ct c) v) ;; ret this.
(** fixed.hpp:312-316, 329-333 *)
Definition o_add_assign_int (c : cfg) (this n : Z) : cmd Z :=
  a <- rd this ;; s <- pure (c_shl (ct c) (wrap (ct c) n) (cf c)) ;; v <- pure (c_add (ct c) (promote (ct c)) a s) ;;
  _ <- wr this (wrap (ct c) v) ;; ret this.
Definition o_sub_assign_int (c : cfg) (this n : Z) : cmd Z :=
  a <- rd this ;; s <- pure (c_shl (ct c) (wrap (ct c) n) (cf c)) ;; v <- pure (c_sub (ct c) (promote (ct c)) a s) ;;
  _ <- wr this (wrap (ct c) v) ;; ret this.
(** fixed.hpp:348-361 *)
Definition o_mul_assign (c : cfg) (this other : Z) : cmd Z :=
  if cr c then
    a <- rd this ;; b <- rd other ;; p <- pure (c_mul (ci c) (ct c) (wrap (ci c) a) b) ;;
    fm <- pure (fraction_multiplier c) ;; h <- pure (c_div (ci c) int32 fm 2) ;;
    v <- pure (c_div (it c) (promote (ci c)) p h) ;;
    r <- pure (round_tail c v) ;; _ <- wr this r ;; ret this
  else
    a <- rd this ;; b <- rd other ;; p <- pure (c_mul (ci c) (ct c) (wrap (ci c) a) b) ;;
    v <- pure (c_shr (it c) p (cf c)) ;; _ <- wr this (wrap (ct c) v) ;; ret this.
(** fixed.hpp:363-367 *)
Definition o_mul_assign_int (c : cfg) (t : ity) (this n : Z) : cmd Z :=
  a <- rd this ;; v <- pure (c_mul (ct c) t a n) ;; _ <- wr this (wrap (ct c) v) ;; ret this.
(** fixed.hpp:382-394 *)
Definition o_div_assign (c : cfg) (this other : Z) : cmd Z :=
  if cr c then
    a <- rd this ;; s <- pure (c_shl (ci c) (wrap (ci c) a) (cf c)) ;; d <- pure (c_mul (promote (ci c)) int32 s 2) ;;
    b <- rd other ;; v <- pure (c_div (promote (ci c)) (ct c) d b) ;;
    r <- pure (round_tail c v) ;; _ <- wr this r ;; ret this
  else
    a <- rd this ;; s <- pure (c_shl (ci c) (wrap (ci c) a) (cf c)) ;;
    b <- rd other ;; v <- pure (c_div (promote (ci c)) (ct c) s b) ;; _ <- wr this (wrap (ct c) v) ;; ret this.
(** fixed.hpp:396-400 *)
Definition o_div_assign_int (c : cfg) (t : ity) (this n : Z) : cmd Z :=
  a <- rd this ;; v <- pure (c_div (ct c) t a n) ;; _ <- wr this (wrap (ct c) v) ;; ret this.
(** fixed.hpp:407-411 *)
Definition o_rem_assign (c : cfg) (this other : Z) : cmd Z :=
  a <- rd this ;; b <- rd other ;; v <- pure (c_rem (ct c) (ct c) a b) ;; _ <- wr this (wrap (ct c) v) ;; ret this.
(** fixed.hpp:628-635 *)
Definition o_divide_by_int (c : cfg) (t : ity) (this n : Z) : cmd Z :=
  if c_eq t int32 n 0 then throw divide_by_zero
  else a <- rd this ;; v <- pure (c_div (ct c) t a n) ;; _ <- wr this (wrap (ct c) v) ;; ret this.
(** fixed.hpp:637-652 *)
Definition o_divide_by (c : cfg) (this other : Z) : cmd Z :=
  y <- rd other ;;
  if c_eq (ct c) int32 y 0 then throw divide_by_zero
  else if cr c then
    a <- rd this ;; s <- pure (c_shl (ci c) (wrap (ci c) a) (cf c)) ;; d <- pure (c_mul (promote (ci c)) int32 s 2) ;;
    b <- rd other ;; v <- pure (c_div (promote (ci c)) (ct c) d b) ;;
    r <- pure (round_tail c v) ;; _ <- wr this r ;; ret this
  else
    a <- rd this ;; s <- pure (c_shl (ci c) (wrap (ci c) a) (cf c)) ;;
    b <- rd other ;; v <- pure (c_div (promote (ci c)) (ct c) s b) ;; _ <- wr this (wrap (ct c) v) ;; ret this.

(** fixed.hpp:418-442.  All four return [fixed_num] BY VALUE, the prefix forms too: the result is a value (of a temporary),
    not a location. *)
Definition o_preinc (c : cfg) (this : Z) : cmd Z :=
  a <- rd this ;; one <- pure (c_shl (ct c) 1 (cf c)) ;; v <- pure (c_add (ct c) (promote (ct c)) a one) ;;
  _ <- wr this (wrap (ct c) v) ;; rd this.
Definition o_postinc (c : cfg) (this : Z) : cmd Z :=
  temp <- rd this ;;
  a <- rd this ;; one <- pure (c_shl (ct c) 1 (cf c)) ;; v <- pure (c_add (ct c) (promote (ct c)) a one) ;;
  _ <- wr this (wrap (ct c) v) ;; ret temp.
Definition o_predec (c : cfg) (this : Z) : cmd Z :=
  a <- rd this ;; one <- pure (c_shl (ct c) 1 (cf c)) ;; v <- pure (c_sub (ct c) (promote (ct c)) a one) ;;
  _ <- wr this (wrap (ct c) v) ;; rd this.
Definition o_postdec (c : cfg) (this : Z) : cmd Z :=
  temp <- rd this ;;
  a <- rd this ;; one <- pure (c_shl (ct c) 1 (cf c)) ;; v <- pure (c_sub (ct c) (promote (ct c)) a one) ;;
  _ <- wr this (wrap (ct c) v) ;; ret temp.

(** The expression [++(++x)] (not repository code): the operand of the outer ++ is the temporary returned by the inner one,
    which lives at the location [tmp]; the result is the value of the expression. *)
Definition e_preinc2 (c : cfg) (tmp x : Z) : cmd Z :=
  v <- o_preinc c x ;; _ <- wr tmp v ;; o_preinc c tmp.
(** The expression [(x += n) += n] (not repository code): operator+= returns a reference, so both act on [x]. *)
Definition e_add2 (c : cfg) (x n : Z) : cmd Z :=
  l <- o_add_assign_int c x n ;; l <- o_add_assign_int c l n ;; rd l.
