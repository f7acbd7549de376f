(** Model of include/eirin/io/format.hpp: fixed_num_formatter and the std::formatter
    specialisation (CharT = char).  No proofs in this file.  Characters are their codes; an output
    iterator is the sequence of characters written through it. *)
From Coq Require Import ZArith Bool List.
From Verif Require Import Base Fixed TextOut.
Import ListNotations.
Open Scope Z_scope.

(** format.hpp:30-42 state_type; '\0' is 0.  The default member initialisers are [state0]. *)
Record fstate := {
  align_mode : Z; sign_mode : Z; alt_form : bool; zero_pad : bool;
  width_val : Z; precision : Z; ftype : Z; fill_ch : Z }.
Definition state0 : fstate :=
  {| align_mode := 0; sign_mode := 45; alt_form := false; zero_pad := false;
     width_val := 0; precision := -1; ftype := 103; fill_ch := 32 |}.
Definition with_fill (s : fstate) (v : Z) := {| align_mode := align_mode s; sign_mode := sign_mode s;
  alt_form := alt_form s; zero_pad := zero_pad s; width_val := width_val s; precision := precision s;
  ftype := ftype s; fill_ch := v |}.
Definition with_align (s : fstate) (v : Z) := {| align_mode := v; sign_mode := sign_mode s;
  alt_form := alt_form s; zero_pad := zero_pad s; width_val := width_val s; precision := precision s;
  ftype := ftype s; fill_ch := fill_ch s |}.
Definition with_sign (s : fstate) (v : Z) := {| align_mode := align_mode s; sign_mode := v;
  alt_form := alt_form s; zero_pad := zero_pad s; width_val := width_val s; precision := precision s;
  ftype := ftype s; fill_ch := fill_ch s |}.
Definition with_alt (s : fstate) (v : bool) := {| align_mode := align_mode s; sign_mode := sign_mode s;
  alt_form := v; zero_pad := zero_pad s; width_val := width_val s; precision := precision s;
  ftype := ftype s; fill_ch := fill_ch s |}.
Definition with_zero (s : fstate) (v : bool) := {| align_mode := align_mode s; sign_mode := sign_mode s;
  alt_form := alt_form s; zero_pad := v; width_val := width_val s; precision := precision s;
  ftype := ftype s; fill_ch := fill_ch s |}.
Definition with_width (s : fstate) (v : Z) := {| align_mode := align_mode s; sign_mode := sign_mode s;
  alt_form := alt_form s; zero_pad := zero_pad s; width_val := v; precision := precision s;
  ftype := ftype s; fill_ch := fill_ch s |}.
Definition with_prec (s : fstate) (v : Z) := {| align_mode := align_mode s; sign_mode := sign_mode s;
  alt_form := alt_form s; zero_pad := zero_pad s; width_val := width_val s; precision := v;
  ftype := ftype s; fill_ch := fill_ch s |}.
Definition with_type (s : fstate) (v : Z) := {| align_mode := align_mode s; sign_mode := sign_mode s;
  alt_form := alt_form s; zero_pad := zero_pad s; width_val := width_val s; precision := precision s;
  ftype := v; fill_ch := fill_ch s |}.

(** std::make_unsigned_t *)
Definition to_unsigned (t : ity) : ity := {| bits := bits t; sgn := false |}.
Definition size_t := uint64.

(** format.hpp:198-215 and 256-265: magnitude of a value of type [t] as an unsigned value,
    [static_cast<unsigned_type>(-(v + 1)) + unsigned_type(1)] for negative values *)
Definition magnitude (t : ity) (v : Z) : res Z :=
  let u := to_unsigned t in
  if sgn t then
    if c_lt t int32 v 0 then
      let* v1 := c_add t int32 v 1 in
      let* n := c_neg (uac t int32) v1 in
      let* s := c_add u u (wrap u n) 1 in
      Ok (wrap u s)
    else Ok (wrap u v)
  else Ok (wrap u v).

(** format.hpp:230-237 and 267-272: [while(uval > 0)], digits appended at the back; [rev] is the
    string so far, last character first, so that the final std::reverse gives [rev] itself *)
Fixpoint udigits (fuel : nat) (u : ity) (up : bool) (tb base uval : Z) (rev : list Z) : res (list Z) :=
  match fuel with
  | O => OutOfFuel
  | S fuel' =>
    if uval >? 0 then
      let* d := c_rem u {| bits := tb; sgn := false |} uval base in
      let* ch := digit_table up d in
      let* q := c_div u {| bits := tb; sgn := false |} uval base in
      udigits fuel' u up tb base (wrap u q) (ch :: rev)
    else Ok rev
  end.

(** format.hpp:243-274 int_to_string, ValType = [t] *)
Definition int_to_string (t : ity) (ival base : Z) (up : bool) : res (list Z) :=
  if c_eq t int32 ival 0 then Ok [48]
  else
    let* uval := magnitude t ival in
    udigits (S (Z.to_nat (bits t))) (to_unsigned t) up (bits t) (wrap (to_unsigned t) base) uval [].

(** format.hpp:289-304 append_sign *)
Definition append_sign (st : fstate) (s : list Z) (neg : bool) : list Z :=
  if sign_mode st =? 43 then s ++ [if neg then 45 else 43]
  else if sign_mode st =? 32 then s ++ [if neg then 45 else 32]
  else if neg then s ++ [45] else s.

(** format.hpp:306-324 append_alt_prefix *)
Definition append_alt_prefix (s : list Z) (base : Z) (upper : bool) : list Z :=
  if base =? 2 then s ++ [48] ++ [if upper then 66 else 98]
  else if base =? 8 then s ++ [48]
  else if base =? 16 then s ++ [48] ++ [if upper then 88 else 120]
  else s.

(** format.hpp:326-366 output_aligned; std::size_t subtraction cannot wrap here because the width
    is larger than the size *)
Definition fill_n (n : Z) (ch : Z) : list Z := repeat ch (Z.to_nat n).
Definition output_aligned (st : fstate) (body : list Z) : list Z :=
  let sz := Z.of_nat (length body) in
  if (width_val st <=? 0) || (wrap size_t (width_val st) <=? sz) then body
  else
    let pad_cnt := wrap size_t (wrap size_t (width_val st) - sz) in
    let pad_ch := if zero_pad st then 48 else fill_ch st in
    let eff_align := if align_mode st =? 0 then 62 else align_mode st in
    if eff_align =? 60 then body ++ fill_n pad_cnt pad_ch
    else if eff_align =? 94 then
      let left := pad_cnt / 2 in
      let right := pad_cnt - left in
      fill_n left pad_ch ++ body ++ fill_n right pad_ch
    else fill_n pad_cnt pad_ch ++ body.

(** format.hpp:187-241 format_debug_to *)
Definition format_debug_to (c : cfg) (st : fstate) (m : Z) : res (list Z) :=
  let t := ct c in
  let neg := sgn t && c_lt t int32 m 0 in
  let* uval := magnitude t m in
  let body := append_sign st [] neg in
  let body := if alt_form st then append_alt_prefix body 16 false else body in
  let* body :=
    (if uval =? 0 then Ok (body ++ [48])
     else let* rev := udigits (S (Z.to_nat (bits t))) (to_unsigned t) false 32 16 uval [] in
          Ok (body ++ rev)) in
  Ok (output_aligned st body).

(** format.hpp:59-90: the switch on the type: (int_only, uppercase, base), or [None] for '?' *)
Definition mode_of (ty : Z) : option (bool * bool * Z) :=
  if ty =? 88 then Some (true, true, 16)          (* X *)
  else if ty =? 120 then Some (true, false, 16)   (* x *)
  else if ty =? 100 then Some (true, false, 10)   (* d *)
  else if ty =? 111 then Some (true, false, 8)    (* o *)
  else if ty =? 66 then Some (true, true, 2)      (* B *)
  else if ty =? 98 then Some (true, false, 2)     (* b *)
  else if ty =? 63 then None                      (* ? *)
  else Some (false, (ty =? 71) || (ty =? 70), 10). (* g G f F and anything else *)

(** format.hpp:153-164: the loop producing fraction digits; [n] is the number of remaining
    iterations of the for loop.  Result: (digits written in order, used_prec). *)
Fixpoint fmt_frac (n : nat) (c : cfg) (up : bool) (eff_prec : Z) (frac_bits used : Z) (out : list Z)
  : res (list Z * Z) :=
  match n with
  | O => Ok (out, used)
  | S n' =>
    if used <? eff_prec then
      if c_eq (ct c) int32 frac_bits 0 then Ok (out, used)
      else
        let* p := c_mul (ct c) (ct c) frac_bits (wrap (ct c) 10) in
        let shifted := wrap (ct c) p in
        let* dg := c_shr (ct c) shifted (cf c) in
        let digit := wrap (ct c) dg in
        let* one := c_shl (ct c) 1 (cf c) in
        let* mask := c_sub (promote (ct c)) (ct c) one 1 in
        let fb := wrap (ct c) (c_and (ct c) (promote (ct c)) shifted mask) in
        let* ch := digit_table up (wrap size_t digit) in
        fmt_frac n' c up eff_prec fb (used + 1) (out ++ [ch])
    else Ok (out, used)
  end.

(** format.hpp:167-178: trailing zeros; [n] bounds the iterations of the while loop *)
Fixpoint trail_zeros (n : nat) (eff_prec used : Z) (out : list Z) : res (list Z) :=
  match n with
  | O => OutOfFuel
  | S n' =>
    if used <? eff_prec then
      let out := if used =? 0 then out ++ [46] else out in
      trail_zeros n' eff_prec (used + 1) (out ++ [48])
    else Ok out
  end.

(** format.hpp:56-182 format_to *)
Definition format_to (c : cfg) (st : fstate) (m : Z) : res (list Z) :=
  match mode_of (ftype st) with
  | None => format_debug_to c st m
  | Some (int_only, uppercase, base) =>
    let* neg := fx_signbit c m in
    let* int_val := integral_part c m in
    let* digit_str := int_to_string (ct c) int_val base uppercase in
    let prefix := append_sign st [] neg in
    let prefix := if alt_form st && int_only && negb (base =? 10)
                  then append_alt_prefix prefix base uppercase else prefix in
    if int_only then
      let body :=
        if zero_pad st && (width_val st >? 0) then
          let total := Z.of_nat (length prefix) + Z.of_nat (length digit_str) in
          if wrap int32 total <? width_val st then
            let zeros := wrap size_t (wrap size_t (width_val st) - total) in
            prefix ++ fill_n zeros 48 ++ digit_str
          else prefix ++ digit_str
        else prefix ++ digit_str in
      Ok (output_aligned st body)
    else
      let body := prefix ++ digit_str in
      let* fv := fractional_part c m in
      let* frac_val :=
        (if sgn (ct c) && c_lt (ct c) int32 fv 0
         then let* n := c_neg (ct c) fv in Ok (wrap (ct c) n) else Ok fv) in
      let has_frac := negb (c_eq (ct c) int32 frac_val 0) in
      let eff_prec := if precision st <? 0 then 6 else precision st in
      let* bu :=
        (if has_frac then fmt_frac (Z.to_nat (cf c)) c uppercase eff_prec frac_val 0 (body ++ [46])
         else Ok (body, 0)) in
      let '(body, used_prec) := bu in
      let* body :=
        (if (ftype st =? 102) || (ftype st =? 70)
         then trail_zeros (S (Z.to_nat eff_prec)) eff_prec used_prec body
         else Ok body) in
      Ok (output_aligned st body)
  end.

(** ** std::formatter<fixed_num>::parse (format.hpp:377-495).  The iterator is the list of the
    characters from its position to the end of the format string. *)
Definition is_dig (ch : Z) : bool := (48 <=? ch) && (ch <=? 57).
Definition is_align (ch : Z) : bool := (ch =? 60) || (ch =? 62) || (ch =? 94).

(** format.hpp:393-395 [while(p != end && *p >= '0' && *p <= '9') ++p] *)
Fixpoint skip_digits (it : list Z) : list Z :=
  match it with
  | ch :: r => if is_dig ch then skip_digits r else it
  | [] => []
  end.

(** format.hpp:448-452, 460-464: [v = v * 10 + (ch - '0')] in int *)
Fixpoint read_int (it : list Z) (v : Z) : res (Z * list Z) :=
  match it with
  | ch :: r =>
    if is_dig ch then
      let* p := c_mul int32 int32 v 10 in
      let* v' := c_add int32 int32 p (ch - 48) in
      read_int r v'
    else Ok (v, it)
  | [] => Ok (v, [])
  end.

(** format.hpp:392-398: an optional "digits:" is skipped *)
Definition parse_argid (it : list Z) : list Z :=
  match skip_digits it with
  | ch :: r => if ch =? 58 then r else it
  | [] => it
  end.
(** format.hpp:407-421 *)
Definition parse_align (st : fstate) (it : list Z) : fstate * list Z :=
  match it with
  | [] => (st, [])
  | c0 :: r =>
    match r with
    | n :: r' =>
      if is_align n then (with_align (with_fill st c0) n, r')
      else if is_align c0 then (with_align st c0, r) else (st, it)
    | [] => if is_align c0 then (with_align st c0, r) else (st, it)
    end
  end.
(** format.hpp:424-428 *)
Definition parse_sign (st : fstate) (it : list Z) : fstate * list Z :=
  match it with
  | ch :: r => if (ch =? 43) || (ch =? 45) || (ch =? 32) then (with_sign st ch, r) else (st, it)
  | [] => (st, it)
  end.
(** format.hpp:431-435 *)
Definition parse_alt (st : fstate) (it : list Z) : fstate * list Z :=
  match it with
  | ch :: r => if ch =? 35 then (with_alt st true, r) else (st, it)
  | [] => (st, it)
  end.
(** format.hpp:438-442 *)
Definition parse_zero (st : fstate) (it : list Z) : fstate * list Z :=
  match it with
  | ch :: r => if ch =? 48 then (with_zero st true, r) else (st, it)
  | [] => (st, it)
  end.
(** format.hpp:445-453 *)
Definition parse_width (st : fstate) (it : list Z) : res (fstate * list Z) :=
  match it with
  | ch :: _ =>
    if is_dig ch then let* vr := read_int it 0 in Ok (with_width st (fst vr), snd vr) else Ok (st, it)
  | [] => Ok (st, it)
  end.
(** format.hpp:456-465 *)
Definition parse_prec (st : fstate) (it : list Z) : res (fstate * list Z) :=
  match it with
  | ch :: r =>
    if ch =? 46 then let* vr := read_int r 0 in Ok (with_prec st (fst vr), snd vr) else Ok (st, it)
  | [] => Ok (st, it)
  end.
(** format.hpp:468-491: g G f F d x X o b B ? *)
Definition is_type (ch : Z) : bool :=
  existsb (Z.eqb ch) [103; 71; 102; 70; 100; 120; 88; 111; 98; 66; 63].
Definition parse_type (st : fstate) (it : list Z) : res (fstate * list Z) :=
  match it with
  | ch :: r =>
    if is_type ch then Ok (with_type st ch, r)
    else if ch =? 125 then Ok (st, it)
    else Throw format_error
  | [] => Ok (st, it)
  end.

(** format.hpp:377-495: result is the state passed to set_state and the returned iterator *)
Definition parse_spec (it : list Z) : res (fstate * list Z) :=
  match it with
  | [] => Ok (state0, [])
  | _ =>
    match parse_argid it with
    | [] => Ok (state0, [])
    | it =>
      let '(st, it) := parse_align state0 it in
      let '(st, it) := parse_sign st it in
      let '(st, it) := parse_alt st it in
      let '(st, it) := parse_zero st it in
      let* si := parse_width st it in
      let* si := parse_prec (fst si) (snd si) in
      parse_type (fst si) (snd si)
    end
  end.

(** One replacement field as std::vformat processes it ([format.formatter.spec]): parse is called
    with the rest of the format string, the returned iterator has to point at the closing brace
    (otherwise std::format_error), then format is called.  Result: the text and the rest of the
    format string.  Standard library behaviour, not repository code. *)
Definition format_field (c : cfg) (m : Z) (spec : list Z) : res (list Z * list Z) :=
  let* si := parse_spec spec in
  match snd si with
  | ch :: rest =>
    if ch =? 125 then let* s := format_to c (fst si) m in Ok (s, rest) else Throw format_error
  | [] => Throw format_error
  end.
