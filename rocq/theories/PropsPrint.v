(** C146: the generator of numbers.hpp.  Only statements; the proofs are in PrintProofs.v. *)
From Coq Require Import ZArith QArith Qabs Bool List String.
From Verif Require Import Base Fixed Numbers Print Spec SpecText SpecFp SpecPrint PrintProofs LdProofs.
Import ListNotations.
Open Scope Z_scope.

(** C146 [p] is the precision of long double.  For every number of fraction bits up to 61 the program prints one definition
    per constant, in order, whose hexadecimal numeral is the constant with [f] fraction bits up to one ulp and the precision
    of double ... *)
Theorem C146_text p f : (p = 53 \/ p = 64 \/ p = 113) -> 0 <= f <= 61 ->
  exists text, print_constants p f = Ok text /\
    defines_all (fun c r => (Qabs (qval f r - c) <= qval f 1 + qval 52 1)%Q) known_constants text.
Proof. exact (print_near p f). Qed.
Print Assumptions C146_text.
(** ... and for 61 fraction bits, the default, it is the numeral numbers.hpp has *)
Theorem C146_numbers p : (p = 53 \/ p = 64 \/ p = 113) -> exists text items, print_constants p 61 = Ok text /\ text = List.concat items /\
  Forall2 (fun item (nk : string * (cfg -> res Z)) => exists hs r,
    item = definition_text (fst nk) hs /\ expansion 16 false hs (inject_Z r) /\ forall c, snd nk c = from_fixed_num_value c 61 int64 r)
    items [("log2e", log2e_v); ("log10e", log10e_v); ("inv_pi", inv_pi_v); ("inv_sqrtpi", inv_sqrtpi_v); ("ln2", ln2_v); ("ln10", ln10_v);
   ("sqrt2", sqrt2_v); ("sqrt3", sqrt3_v); ("inv_sqrt3", inv_sqrt3_v); ("egamma", egamma_v); ("phi", phi_v)]%string.
Proof. exact (print_hex61 p). Qed.
Print Assumptions C146_numbers.
(** C146 as stated is false for every other number of fraction bits: the text says 61 whatever the argument is, so every
    definition is wrong by more than 0.1 *)
Theorem C146_fraction_refuted p f : (p = 53 \/ p = 64 \/ p = 113) -> 0 <= f <= 60 ->
  exists text, print_constants p f = Ok text /\ defines_all (fun c r => (1 # 10 < c - qval 61 r)%Q) known_constants text.
Proof. exact (print_off p f). Qed.
Print Assumptions C146_fraction_refuted.
Example C146_case : exists rest, print_constants 64 61 = Ok (txt "
// log2e
template <typename T>
EIRIN_ALWAYS_INLINE constexpr enable_if_fixed<T> log2e_v()
{
" ++ 9 :: txt "return T::template from_fixed_num_value<61>(0x2e2a8eca5705fc00ll);
}
" ++ rest).
Proof. eexists. vm_compute. reflexivity. Qed.
(** the generator reads a decimal literal of 36 places as the long double nearest to it, whatever the literal, and passes
    the double nearest to that *)
Theorem C146_literal p a : 1 <= p <= 113 -> 10 ^ 35 <= a ->
  fp_nearest p (Qmake a (Z.to_pos (10 ^ 36))) (qval 201 (ld_of p a)) /\ fp_nearest 53 (qval 201 (ld_of p a)) (qval 201 (double_of p a)).
Proof. exact (fun H1 H2 => conj (ld_nearest p a H1 H2) (double_nearest p a)). Qed.
Print Assumptions C146_literal.
(** a literal just above the middle of two doubles, 1 + 2^-53 + 10^-20: the two roundings through the 64 bits of x87
    lose the difference, the one through 113 bits does not *)
Example C146_literal_case : let a := 10 ^ 36 + 10 ^ 36 / 2 ^ 53 + 10 ^ 16 in
  double_of 64 a = 2 ^ 201 /\ double_of 113 a = 2 ^ 201 + 2 ^ 149.
Proof. vm_compute. auto. Qed.
