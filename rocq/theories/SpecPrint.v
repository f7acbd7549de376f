(** Specification vocabulary for the text of a generated definition.  No model file is imported. *)
From Coq Require Import ZArith QArith List String.
From Verif Require Import Spec SpecText.
Import ListNotations.
Open Scope Z_scope.

(** the definition of the constant [name] whose 61-bit representation is written [hs] *)
Definition definition_text (name : string) (hs : list Z) : list Z :=
  txt "
// " ++ txt name ++ txt "
template <typename T>
EIRIN_ALWAYS_INLINE constexpr enable_if_fixed<T> " ++ txt name ++ txt "_v()
{
" ++ 9 :: txt "return T::template from_fixed_num_value<61>(0x" ++ hs ++ txt "ll);
}
".
(** the constants by name, to 36 decimal places *)
Definition known_constants : list (string * Q) :=
  [("log2e", 1442695040888963407359924681001892137 # (10 ^ 36));
   ("log10e", 434294481903251827651128918916605082 # (10 ^ 36));
   ("inv_pi", 318309886183790671537767526745028724 # (10 ^ 36));
   ("inv_sqrtpi", 564189583547756286948079451560772586 # (10 ^ 36));
   ("ln2", 693147180559945309417232121458176568 # (10 ^ 36));
   ("ln10", 2302585092994045684017991454684364208 # (10 ^ 36));
   ("sqrt2", 1414213562373095048801688724209698079 # (10 ^ 36));
   ("sqrt3", 1732050807568877293527446341505872367 # (10 ^ 36));
   ("inv_sqrt3", 577350269189625764509148780501957456 # (10 ^ 36));
   ("egamma", 577215664901532860606512090082402431 # (10 ^ 36));
   ("phi", 1618033988749894848204586834365638118 # (10 ^ 36))]%string.
(** the text is the sequence of the definitions, each with a hexadecimal numeral of a number related to its constant by [P] *)
Definition defines_all (P : Q -> Z -> Prop) (cs : list (string * Q)) (text : list Z) : Prop :=
  exists items : list (list Z),
    Forall2 (fun (nc : string * Q) item => exists hs r,
      item = definition_text (fst nc) hs /\ expansion 16 false hs (inject_Z r) /\ P (snd nc) r) cs items /\
    text = List.concat items.
