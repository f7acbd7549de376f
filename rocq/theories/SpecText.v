(** Specification vocabulary for text: positional numerals.  No model file is imported. *)
From Coq Require Import ZArith QArith Bool String Ascii List.
Import ListNotations.
Open Scope Z_scope.

(** the number denoted by a digit list, most significant digit first *)
Definition num (b : Z) (ds : list Z) : Z := fold_left (fun a d => a * b + d) ds 0.

(** the ASCII character of a digit *)
Definition digit_char (upper : bool) (d : Z) : Z :=
  if d <? 10 then d + 48 else if upper then d - 10 + 65 else d - 10 + 97.
Definition is_digits (b : Z) (ds : list Z) : Prop := Forall (fun d => 0 <= d < b) ds.

(** value of integer digits [ip] and fraction digits [fp] in base [b] *)
Definition numeral (b : Z) (neg : bool) (ip fp : list Z) : Q :=
  let q := ((num b ip * b ^ Z.of_nat (length fp) + num b fp) # Z.to_pos (b ^ Z.of_nat (length fp)))%Q in
  if neg then (- q)%Q else q.

(** text of a numeral: [-]ip[.fp] *)
Definition render (up : bool) (neg : bool) (ip fp : list Z) : list Z :=
  (if neg then [45] else []) ++ map (digit_char up) ip ++
  (match fp with [] => [] | _ => 46 :: map (digit_char up) fp end).

(** [s] is the canonical base-[b] expansion of [q]: exact value, a minus sign exactly for negative
    numbers, no superfluous leading or trailing zeros, at least one integer digit *)
Definition expansion (b : Z) (up : bool) (s : list Z) (q : Q) : Prop :=
  exists neg ip fp,
    is_digits b ip /\ is_digits b fp /\ s = render up neg ip fp /\
    (numeral b neg ip fp == q)%Q /\
    (neg = true <-> (q < 0)%Q) /\
    (ip = [0] \/ exists d r, ip = d :: r /\ d <> 0) /\
    (fp = [] \/ exists d r, fp = r ++ [d] /\ d <> 0).

(** decimal text [-]ip, [-]ip. or [-]ip.fp; the integer digits may be missing *)
Definition dec_text (neg : bool) (ip : list Z) (fp : option (list Z)) : list Z :=
  (if neg then [45] else []) ++ map (digit_char false) ip ++
  (match fp with None => [] | Some fp => 46 :: map (digit_char false) fp end).
Definition frac_of (fp : option (list Z)) : list Z := match fp with None => [] | Some fp => fp end.
(** number of leading zero digits *)
Fixpoint leading_zeros (ds : list Z) : Z :=
  match ds with [] => 0 | d :: r => if d =? 0 then 1 + leading_zeros r else 0 end.

(** ASCII text of a Coq string *)
Definition txt (s : string) : list Z := map (fun a => Z.of_nat (nat_of_ascii a)) (list_ascii_of_string s).
