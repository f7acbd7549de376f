(** Model of print_constants, include/eirin/detail/util.hpp:75-131.  The output of printf is a list of character codes.  No
    proofs in this file. *)
From Coq Require Import ZArith Bool List String Ascii.
From Verif Require Import Base Fixed Float Util.
Import ListNotations.
Open Scope Z_scope.

(** the characters of a C string literal *)
Definition chars (s : string) : list Z := map (fun a => Z.of_nat (nat_of_ascii a)) (list_ascii_of_string s).

(** util.hpp:79-91, 99-111: the names and the long double literals, as integers over 10^36 *)
Definition cst_lst : list (string * Z) :=
  [("log2e", 1442695040888963407359924681001892137);
   ("log10e", 434294481903251827651128918916605082);
   ("inv_pi", 318309886183790671537767526745028724);
   ("inv_sqrtpi", 564189583547756286948079451560772586);
   ("ln2", 693147180559945309417232121458176568);
   ("ln10", 2302585092994045684017991454684364208);
   ("sqrt2", 1414213562373095048801688724209698079);
   ("sqrt3", 1732050807568877293527446341505872367);
   ("inv_sqrt3", 577350269189625764509148780501957456);
   ("egamma", 577215664901532860606512090082402431);
   ("phi", 1618033988749894848204586834365638118)]%string.

(** A long double literal is rounded to [p] bits ([p] = 64 for the x87 format) and then, as an argument of eval_value, to
    double.  The quotient by 10^36 is computed to 200 binary places with a sticky bit below them; the result is
    [double_of p a] / 2^201. *)
Definition ld_of (p a : Z) : Z := rne p (2 * (a * 2 ^ 200 / 10 ^ 36) + (if a * 2 ^ 200 mod 10 ^ 36 =? 0 then 0 else 1)).
Definition double_of (p a : Z) : Z := rne 53 (ld_of p a).

(** printf's %lx (standard library): lower-case hexadecimal digits of an unsigned long *)
Fixpoint hex_loop (fuel : nat) (n : Z) (acc : list Z) : list Z :=
  match fuel with
  | O => acc
  | S k =>
      let d := n mod 16 in
      let acc := (if d <? 10 then 48 + d else 87 + d) :: acc in
      if n / 16 =? 0 then acc else hex_loop k (n / 16) acc
  end.
Definition hex (v : Z) : list Z := hex_loop 16 (wrap uint64 v) [].

(** util.hpp:126-129, one constant, T = int64_t.  For a narrower T the argument of %lx has the wrong type, which is
    undefined. *)
Definition print_constant (p f : Z) (name : string) (a : Z) : res (list Z) :=
  let* val := eval_value int64 (double_of p a) 201 f in
  Ok ([10] ++ chars "// " ++ chars name ++ [10] ++ chars "template <typename T>" ++ [10]
        ++ chars "EIRIN_ALWAYS_INLINE constexpr enable_if_fixed<T> " ++ chars name ++ chars "_v()" ++ [10]
        ++ chars "{" ++ [10; 9] ++ chars "return T::template from_fixed_num_value<61>(0x" ++ hex val ++ chars "ll);" ++ [10]
        ++ chars "}" ++ [10]).
(** util.hpp:120-131 *)
Fixpoint print_list (p f : Z) (l : list (string * Z)) : res (list Z) :=
  match l with
  | [] => Ok []
  | (name, a) :: r => let* s := print_constant p f name a in let* t := print_list p f r in Ok (s ++ t)
  end.
Definition print_constants (p f : Z) : res (list Z) := print_list p f cst_lst.
