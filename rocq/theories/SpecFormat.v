(** Specification vocabulary for formatted output (std::format conventions).  No model file is
    imported. *)
From Coq Require Import ZArith QArith Bool String List.
From Verif Require Import SpecText.
Import ListNotations.
Open Scope Z_scope.

(** the digits [ds] are the canonical base-[b] numeral of [n]: no superfluous leading zero *)
Definition canon (b : Z) (ds : list Z) (n : Z) : Prop :=
  is_digits b ds /\ num b ds = n /\ (ds = [0] \/ exists d r, ds = d :: r /\ d <> 0).

(** n / 10^p *)
Definition dval (p n : Z) : Q := n # Z.to_pos (10 ^ p).
(** [n] units of 10^-p is [q] >= 0 cut off after [p] decimal places *)
Definition dec_trunc (p : Z) (q : Q) (n : Z) : Prop := (dval p n <= q)%Q /\ (q < dval p (n + 1))%Q.

(** the sign of a number: mode '+' and ' ' also mark non-negative numbers *)
Definition sign_text (mode : Z) (neg : bool) : list Z :=
  if neg then [45] else if mode =? 43 then [43] else if mode =? 32 then [32] else [].
(** the alternate-form prefix of a base *)
Definition base_text (alt upper : bool) (base : Z) : list Z :=
  if alt then
    (if base =? 2 then [48; if upper then 66 else 98]
     else if base =? 8 then [48]
     else if base =? 16 then [48; if upper then 88 else 120] else [])
  else [].

(** the types with a radix: X x d o B b, with letter case and base; and the decimal ones g G f F *)
Definition radix_type (ty : Z) (upper : bool) (base : Z) : Prop :=
  In (ty, upper, base) [(88, true, 16); (120, false, 16); (100, false, 10); (111, false, 8); (66, true, 2); (98, false, 2)].
Definition is_radix (ty : Z) : bool := existsb (Z.eqb ty) [88; 120; 100; 111; 66; 98].
Definition dec_type (ty : Z) : Prop := In ty [103; 71; 102; 70].

(** [out] is [body] extended to [width] characters with [fill]; '<' (60) puts the fill on the
    right, '^' (94) on both sides (the extra one on the right), everything else on the left *)
Definition padded (width fill align : Z) (body out : list Z) : Prop :=
  exists l r : nat,
    out = repeat fill l ++ body ++ repeat fill r /\
    Z.of_nat (List.length out) = Z.max width (Z.of_nat (List.length body)) /\
    (align = 60 -> l = 0%nat) /\
    (align = 94 -> (l <= r <= S l)%nat) /\
    (align <> 60 -> align <> 94 -> r = 0%nat).

(** [out] is sign and prefix [pre], then zeros, then the digits [ds], at least [width] characters *)
Definition zero_padded (width : Z) (pre ds out : list Z) : Prop :=
  exists z : nat, out = pre ++ repeat 48 z ++ ds /\
    Z.of_nat (List.length out) = Z.max width (Z.of_nat (List.length (pre ++ ds))).

(** a format specification as written: [[fill]align][sign][#][0][width][.precision][type] *)
Record fspec := {
  p_fill : option Z; p_align : option Z; p_sign : option Z; p_alt : bool; p_zero : bool;
  p_width : option (list Z); p_prec : option (list Z); p_type : option Z }.
Definition opt (o : option Z) : list Z := match o with Some c => [c] | None => [] end.
Definition dgs (ds : list Z) : list Z := map (digit_char false) ds.
Definition spec_text (s : fspec) : list Z :=
  opt (p_fill s) ++ opt (p_align s) ++ opt (p_sign s) ++ (if p_alt s then [35] else []) ++
  (if p_zero s then [48] else []) ++
  (match p_width s with Some ds => dgs ds | None => [] end) ++
  (match p_prec s with Some ds => 46 :: dgs ds | None => [] end) ++
  opt (p_type s).
(** the standard's grammar: the fill only with an alignment, the width does not start with 0;
    width and precision fit an int *)
Definition spec_ok (s : fspec) : Prop :=
  (p_align s = None -> p_fill s = None) /\
  (forall a, p_align s = Some a -> In a [60; 62; 94]) /\
  (forall a, p_sign s = Some a -> In a [43; 45; 32]) /\
  (forall ds, p_width s = Some ds -> is_digits 10 ds /\ num 10 ds <= 2147483647 /\ exists d r, ds = d :: r /\ d <> 0) /\
  (forall ds, p_prec s = Some ds -> is_digits 10 ds /\ num 10 ds <= 2147483647) /\
  (forall t, p_type s = Some t -> In t (txt "gGfFdxXobB?"%string)).
