(** Model of include/eirin/detail/util.hpp (constant tools, BBP, lookup table) and include/eirin/detail/perf.hpp. *)
From Coq Require Import ZArith Bool List.
From Verif Require Import Base Fixed Math.
Import ListNotations.
Open Scope Z_scope.

(** ---- eval_value, util.hpp:56-73 ----
    The double is the dyadic rational n/2^k (k >= 0).  frac_part = val - int_part and the subtractions in the loop are
    exact in double arithmetic, so frac_part is kept as an integer over 2^(k+fraction); the i-th entry of
    fraction_bits (util.hpp:15-38) is 2^-i.  The loop is entered with i = 1; [todo] counts the remaining iterations.
    Reading the array past its sizeof(I)*8 entries is undefined. *)
Fixpoint eval_bits (t : ity) (k f : Z) (todo : nat) (i frac r : Z) : res Z :=
  match todo with
  | O => Ok r
  | S todo =>
    if i - 1 <? bits t then
      let cur := 2 ^ (k + f - i) in
      if cur <=? frac then
        let* b := c_shl int64 1 (f - i) in                              (* 1ll << (fraction - i) *)
        eval_bits t k f todo (i + 1) (frac - cur) (wrap t (Z.lor (wrap (uac t int64) r) b))
      else eval_bits t k f todo (i + 1) frac r
    else UB
  end.
Definition eval_value (t : ity) (n k f : Z) : res Z :=
  let* int_part := float_to_int t n (2 ^ k) in
  let frac := (n - int_part * 2 ^ k) * 2 ^ f in
  let* r := eval_bits t k f (Z.to_nat f) 1 frac 0 in
  let* s := c_shl t int_part f in
  let* v := c_add t (promote t) r s in
  Ok (wrap t v).

(** ---- bbp_calc_pi, util.hpp:160-192 ----
    Only T = int64_t instantiates (for narrower T intermediate_t names the std::conditional itself); the intermediate
    type is int128. *)
Fixpoint div16 (n : nat) (factor : Z) : res Z :=
  match n with O => Ok factor | S n => let* q := c_div int128 int32 factor 16 in div16 n (wrap int128 q) end.
Definition bbp_term (f k : Z) : res Z :=
  let* frac_mult := c_shl int128 1 f in
  let* k4 := c_mul int32 int32 4 k in
  let* factor := div16 (Z.to_nat k4) (wrap int128 frac_mult) in
  let quotient a b :=
    let* n := c_mul int32 int128 a factor in
    let* d := c_mul int32 int32 8 k in
    let* d := c_add int32 int32 d b in
    let* q := c_div int128 int32 n d in Ok (wrap int128 q) in
  let* term1 := quotient 4 1 in
  let* term2 := quotient 2 4 in
  let* term3 := quotient 1 5 in
  let* term4 := quotient 1 6 in
  let* d := c_sub int128 int128 term1 term2 in
  let* d := c_sub int128 int128 d term3 in
  c_sub int128 int128 d term4.
Fixpoint bbp_loop (f k : Z) (n : nat) (sum : Z) : res Z :=
  match n with
  | O => Ok sum
  | S n =>
    let* t := bbp_term f k in
    let* s := c_add int128 int128 sum t in
    bbp_loop f (k + 1) n (wrap int128 s)
  end.
Definition bbp_calc_pi (f N : Z) : res Z :=
  let* s := bbp_loop f 0 (Z.to_nat N) 0 in Ok (wrap int64 s).

(** ---- lookup tables, util.hpp:195-249 (fixed64 only) ---- *)
(** pi_f64 / fixed64(N) *)
Definition lut_step (N : Z) : res Z :=
  let* p := pi_v F64 in let* n := fx_of_int F64 N in fx_div F64 p n.
Fixpoint tabulate (g : Z -> res Z) (i : Z) (n : nat) : res (list Z) :=
  match n with
  | O => Ok []
  | S n => let* v := g i in let* r := tabulate g (i + 1) n in Ok (v :: r)
  end.
(** util.hpp:197-207, 209-219: both tables; angels_lut is the case func = identity *)
Definition func_ptr_lut (N : Z) (func : Z -> res Z) : res (list Z) :=
  let* step := lut_step N in
  tabulate (fun i => let* fi := fx_of_int F64 i in let* x := fx_mul F64 step fi in func x) 0 (Z.to_nat N).
Definition angels_lut (N : Z) : res (list Z) := func_ptr_lut N (fun x => Ok x).
(** util.hpp:221-225: [sin_d i] is the double std::sin(i) as a dyadic rational (numerator, exponent); the argument is
    the double obtained from the fixed-point number *)
Definition lut_sin (sin_d : Z -> Z * Z) (x : Z) : res Z :=
  let* i := fx_to_float F64 x in let '(n, k) := sin_d i in fx_of_float F64 n k.
(** array element access with an int64_t index converted to size_t *)
Definition arr_at (l : list Z) (i : Z) : res Z :=
  if (0 <=? i) && (i <? Z.of_nat (length l)) then Ok (nth (Z.to_nat i) l 0) else UB.
(** util.hpp:227-248 with the table as argument *)
Definition lut_calc (N : Z) (lut : list Z) (x : Z) : res Z :=
  let c := F64 in
  let* pi := pi_v c in
  let* two := fx_of_int c 2 in
  let* two_pi := fx_mul c pi two in
  let* q := fx_div c x two_pi in
  let* ip := integral_part c q in
  let* turns := fx_mul_int c int64 two_pi ip in
  let* x_mod := fx_sub c x turns in
  let negate := fx_ge c x_mod pi in
  let* x_mod := if negate then fx_sub_assign c x_mod pi else Ok x_mod in
  let* n1 := fx_of_int c (N - 1) in
  let* h := fx_div c pi n1 in
  let* pos := fx_div c x_mod h in
  let* ip := integral_part c pos in
  let idx := Z.min ip (N - 2) in
  let* fidx := fx_of_int c idx in
  let* frac := fx_sub c pos fidx in
  let* a := arr_at lut idx in
  let* omf := int_sub_fx c int32 1 frac in
  let* l := fx_mul c a omf in
  let* b := arr_at lut (idx + 1) in
  let* r := fx_mul c b frac in
  let* result := fx_add c l r in
  if negate then fx_neg c result else Ok result.
Definition lut_calc_sin (sin_d : Z -> Z * Z) (N x : Z) : res Z :=
  let* lut := func_ptr_lut N (lut_sin sin_d) in lut_calc N lut x.

(** ---- measure_esp, perf.hpp:28-49 ----
    [func], [std_func] and [initializer] are parameters; the loop runs until x > end. *)
Record esp_ret := { max_esp : Z; min_esp : Z; max_esp_input : Z; min_esp_input : Z }.
Fixpoint esp_loop (fuel : nat) (c : cfg) (func std_func : Z -> res Z) (x stop step : Z) (r : esp_ret) : res esp_ret :=
  if fx_le c x stop then
    match fuel with
    | O => OutOfFuel
    | S fuel =>
      let* sin_val := func x in
      let* std_sin_val := std_func x in
      let* d := fx_sub c std_sin_val sin_val in
      let* esp := fx_abs c d in
      let r := if fx_gt c esp (max_esp r)
               then {| max_esp := esp; min_esp := min_esp r; max_esp_input := x; min_esp_input := min_esp_input r |} else r in
      let r := if fx_lt c esp (min_esp r)
               then {| max_esp := max_esp r; min_esp := esp; max_esp_input := max_esp_input r; min_esp_input := x |} else r in
      let* x := fx_add_assign c x step in
      esp_loop fuel c func std_func x stop step r
    end
  else Ok r.
Definition measure_esp (fuel : nat) (c : cfg) (start stop step : Z) (func std_func : Z -> res Z) (initializer : Z -> Z) : res esp_ret :=
  esp_loop fuel c func std_func start stop step
    {| max_esp := initializer 0; min_esp := initializer 0xFF; max_esp_input := initializer 0; min_esp_input := initializer 0 |}.
