(** Model of the text input functions: detail::parse (fixed.hpp:682-751), f32_from_cstring
    (884-960), fixed_from_cstring (962-1032), operator>> (1034-1093), the string literals
    (775-822) and io::parse (io/parse.hpp:19-101).  No proofs in this file.

    A (pointer, length) argument is the list of its [len] readable characters (char values,
    -128..127).  Simplified: only CharT = char is modelled. *)
From Coq Require Import ZArith Bool List.
From Verif Require Import Base Fixed.
Import ListNotations.
Open Scope Z_scope.

(** the check_ch / is_digit lambdas (fixed.hpp:688-692, 901-905, 980-984; parse.hpp:45-48) *)
Definition check_ch (ch : Z) : bool := (48 <=? ch) && (ch <=? 57).

(** [acc * 10 + (ch - '0')] assigned to a variable of type [t] *)
Definition push_digit (t : ity) (acc ch : Z) : res Z :=
  let* m := c_mul t int32 acc 10 in
  let* d := c_sub int32 int32 ch 48 in
  let* a := c_add (uac t int32) int32 m d in
  Ok (wrap t a).

(** Integer-part loop, strict variant: a non-digit makes the function return false
    (fixed.hpp:707-712, 914-921; parse.hpp:52-59).  [None] = return false. *)
Fixpoint int_strict (t : ity) (s : list Z) (acc : Z) : res (option (Z * list Z)) :=
  match s with
  | [] => Ok (Some (acc, []))
  | ch :: s' =>
    if ch =? 46 then Ok (Some (acc, s))
    else if negb (check_ch ch) then Ok None
    else let* a := push_digit t acc ch in int_strict t s' a
  end.
(** lax variant: a non-digit ends the loop (fixed.hpp:993-998) *)
Fixpoint int_lax (t : ity) (s : list Z) (acc : Z) : res (Z * list Z) :=
  match s with
  | [] => Ok (acc, [])
  | ch :: s' =>
    if ch =? 46 then Ok (acc, s)
    else if negb (check_ch ch) then Ok (acc, s)
    else let* a := push_digit t acc ch in int_lax t s' a
  end.

(** Fraction loop, strict variant (fixed.hpp:721-732, 929-942; parse.hpp:66-79); [lim] of type
    [tm] is max_fraction / 10 *)
Fixpoint dec_strict (t tm : ity) (lim : Z) (s : list Z) (dec div : Z) : res (option (Z * Z * list Z)) :=
  match s with
  | [] => Ok (Some (dec, div, []))
  | ch :: s' =>
    if negb (check_ch ch) then Ok None
    else if c_lt tm t lim dec then Ok (Some (dec, div, s))
    else
      let* dec' := push_digit t dec ch in
      let* dv := c_mul t int32 div 10 in
      dec_strict t tm lim s' dec' (wrap t dv)
  end.
(** lax variant (fixed.hpp:1006-1013) *)
Fixpoint dec_lax (t tm : ity) (lim : Z) (s : list Z) (dec div : Z) : res (Z * Z * list Z) :=
  match s with
  | [] => Ok (dec, div, [])
  | ch :: s' =>
    if c_lt tm t lim dec || negb (check_ch ch) then Ok (dec, div, s)
    else
      let* dec' := push_digit t dec ch in
      let* dv := c_mul t int32 div 10 in
      dec_lax t tm lim s' dec' (wrap t dv)
  end.

(** [(int_part << f) + (dec_part << f) / divisor] in type [t] *)
Definition combine (t : ity) (f ip dec div : Z) : res Z :=
  let* a := c_shl t ip f in
  let* b := c_shl t dec f in
  let* q := c_div (promote t) t b div in
  c_add (promote t) (promote t) a q.

(** range check, store and negation (fixed.hpp:741-750, 950-959, 1022-1031); [fp] is the old
    value of the target *)
Definition finish (c : cfg) (ti : ity) (fixed_value : Z) (negative : bool) (fp : Z) : res (bool * Z) :=
  if c_lt ti ti (wrap ti (maxv (ct c))) fixed_value || c_lt ti ti fixed_value (wrap ti (minv (ct c)))
  then Ok (false, fp)
  else
    let fp := wrap (ct c) fixed_value in
    if negative then let* r := fx_neg c fp in Ok (true, r) else Ok (true, fp).

(** leading '-' *)
Definition sign_of (s : list Z) : bool * list Z :=
  match s with
  | ch :: s' => if ch =? 45 then (true, s') else (false, s)
  | [] => (false, s)
  end.

(** fixed.hpp:682-751.  Result: the returned bool and the value of [fp] afterwards.
    [max_fraction] is constexpr: where it overflows (fraction = 63) the program is ill-formed,
    represented by UB. *)
Definition detail_parse (c : cfg) (str : list Z) (fp : Z) : res (bool * Z) :=
  let '(negative, s) := sign_of str in
  let* r := int_strict (ci c) s 0 in
  match r with
  | None => Ok (false, fp)
  | Some (int_part, s) =>
    match s with
    | ch :: s' =>
      if ch =? 46 then
        let* one := c_shl int64 1 (cf c) in
        let* max_fraction := c_sub int64 int32 one 1 in
        let* lim := c_div int64 int32 max_fraction 10 in
        let* r := dec_strict (ci c) int64 lim s' 0 1 in
        match r with
        | None => Ok (false, fp)
        | Some (dec_part, divisor, _) =>
          let* v := combine (ci c) (cf c) int_part dec_part divisor in
          finish c (ci c) (wrap (ci c) v) negative fp
        end
      else
        let* v := c_shl (ci c) int_part (cf c) in
        finish c (ci c) (wrap (ci c) v) negative fp
    | [] =>
      let* v := c_shl (ci c) int_part (cf c) in
      finish c (ci c) (wrap (ci c) v) negative fp
    end
  end.

(** fixed.hpp:884-960 *)
Definition f32_from_cstring (str : list Z) (fp : Z) : res (bool * Z) :=
  let '(negative, s) := sign_of str in
  let* r := int_strict int64 s 0 in
  match r with
  | None => Ok (false, fp)
  | Some (int_part, s) =>
    match s with
    | ch :: s' =>
      if ch =? 46 then
        let* one := c_shl int32 1 (cf F32) in
        let* max_fraction := c_sub int32 int32 one 1 in
        let* lim := c_div int32 int32 max_fraction 10 in
        let* r := dec_strict int64 int32 lim s' 0 1 in
        match r with
        | None => Ok (false, fp)
        | Some (dec_part, divisor, _) =>
          let* v := combine int64 (cf F32) int_part dec_part divisor in
          finish F32 int64 (wrap int64 v) negative fp
        end
      else
        let* v := c_shl int64 int_part (cf F32) in
        finish F32 int64 (wrap int64 v) negative fp
    | [] =>
      let* v := c_shl int64 int_part (cf F32) in
      finish F32 int64 (wrap int64 v) negative fp
    end
  end.

(** fixed.hpp:962-1032 *)
Definition fixed_from_cstring (c : cfg) (str : list Z) (fp : Z) : res (bool * Z) :=
  let '(negative, s) := sign_of str in
  let* r := int_lax (ci c) s 0 in
  let '(int_part, s) := r in
  match s with
  | ch :: s' =>
    if ch =? 46 then
      let* one := c_shl (ct c) 1 (cf c) in
      let* max_fraction := c_sub (promote (ct c)) (ct c) one 1 in
      let* lim := c_div (promote (ct c)) int32 max_fraction 10 in
      let* r := dec_lax (ci c) (uac (promote (ct c)) int32) lim s' 0 1 in
      let '(dec_part, divisor, _) := r in
      let* v := combine (ci c) (cf c) int_part dec_part divisor in
      finish c (ci c) (wrap (ci c) v) negative fp
    else
      let* v := c_shl (ci c) int_part (cf c) in
      finish c (ci c) (wrap (ci c) v) negative fp
  | [] =>
    let* v := c_shl (ci c) int_part (cf c) in
    finish c (ci c) (wrap (ci c) v) negative fp
  end.

(** fixed.hpp:775-822: the string literals declare [fixed fp;] (default member value m_value is
    left by the defaulted constructor), call detail::parse, ignore its result and return fp.
    [uninit] is the unspecified initial value; for a constant-evaluated literal reading it is
    ill-formed. *)
Definition literal (c : cfg) (str : list Z) (uninit : Z) : res Z :=
  let* r := detail_parse c str uninit in Ok (snd r).

(** ** std::istream of char.  [rest] holds the bytes not yet extracted (0..255). *)
Record istream := { rest : list Z; eofbit : bool; failbit : bool }.
Definition good (st : istream) : bool := negb (eofbit st) && negb (failbit st).
Definition set_fail (st : istream) : istream :=
  {| rest := rest st; eofbit := eofbit st; failbit := true |}.
(** basic_istream::peek ([istream.unformatted]): the sentry sets failbit when the stream is not
    good; end of input sets eofbit.  The value is the int_type (-1 for EOF). *)
Definition is_peek (st : istream) : Z * istream :=
  if good st then
    match rest st with
    | ch :: _ => (ch, st)
    | [] => (-1, {| rest := []; eofbit := true; failbit := failbit st |})
    end
  else (-1, set_fail st).
(** basic_istream::get *)
Definition is_get (st : istream) : Z * istream :=
  if good st then
    match rest st with
    | ch :: r => (ch, {| rest := r; eofbit := eofbit st; failbit := failbit st |})
    | [] => (-1, {| rest := []; eofbit := true; failbit := true |})
    end
  else (-1, set_fail st).
(** the lambdas of operator>> (fixed.hpp:1039-1051); int_type to char conversion *)
Definition s_peek (st : istream) : Z * istream := let '(v, st) := is_peek st in (wrap int8 v, st).
Definition s_next (st : istream) : Z * istream := let '(v, st) := is_get st in (wrap int8 v, st).
Definition s_has_next (st : istream) : bool * istream :=
  let '(_, st) := is_peek st in (negb (eofbit st), st).
(** isdigit((int)ch): undefined unless ch is EOF or representable as unsigned char *)
Definition isdigit (ch : Z) : res bool :=
  if (-1 <=? ch) && (ch <=? 255) then Ok ((48 <=? ch) && (ch <=? 57)) else UB.

(** fixed.hpp:1064-1069 integer-part loop of operator>> *)
Fixpoint s_int_loop (fuel : nat) (t : ity) (st : istream) (acc : Z) : res (Z * istream) :=
  match fuel with
  | O => OutOfFuel
  | S fuel' =>
    let '(h, st) := s_has_next st in
    if h then
      let '(ch, st) := s_peek st in
      if ch =? 46 then Ok (acc, st)
      else
        let '(ch, st) := s_peek st in
        let* d := isdigit ch in
        if negb d then Ok (acc, st)
        else
          let '(ch, st) := s_next st in
          let* a := push_digit t acc ch in
          s_int_loop fuel' t st a
    else Ok (acc, st)
  end.
(** fixed.hpp:1076-1083 fraction loop of operator>> *)
Fixpoint s_dec_loop (fuel : nat) (t tm : ity) (lim : Z) (st : istream) (dec div : Z) : res (Z * Z * istream) :=
  match fuel with
  | O => OutOfFuel
  | S fuel' =>
    let '(h, st) := s_has_next st in
    if h then
      if c_lt tm t lim dec then Ok (dec, div, st)
      else
        let '(ch, st) := s_peek st in
        let* d := isdigit ch in
        if negb d then Ok (dec, div, st)
        else
          let '(ch, st) := s_next st in
          let* dec' := push_digit t dec ch in
          let* dv := c_mul t int32 div 10 in
          s_dec_loop fuel' t tm lim st dec' (wrap t dv)
    else Ok (dec, div, st)
  end.

(** fixed.hpp:1034-1093 operator>>.  Result: value of fp and the stream afterwards. *)
Definition stream_in (c : cfg) (st : istream) (fp : Z) : res (Z * istream) :=
  let fuel := S (length (rest st)) in
  let '(h, st) := s_has_next st in
  if negb h then Ok (fp, st)
  else
    let '(ch, st) := s_peek st in
    let '(negative, st) := (if ch =? 45 then let '(_, st) := s_next st in (true, st) else (false, st)) in
    let* r := s_int_loop fuel (ct c) st 0 in
    let '(int_part, st) := r in
    let '(h, st) := s_has_next st in
    let* r :=
      (let '(dot, st) :=
         (if h then let '(ch, st) := s_peek st in (ch =? 46, st) else (false, st)) in
       if dot then
         let '(_, st) := s_next st in
         let* one := c_shl (ct c) 1 (cf c) in
         let* max_fraction := c_sub (promote (ct c)) (ct c) one 1 in
         let* lim := c_div (promote (ct c)) int32 max_fraction 10 in
         let* r := s_dec_loop fuel (ct c) (uac (promote (ct c)) int32) lim st 0 1 in
         let '(dec_part, divisor, st) := r in
         let* v := combine (ct c) (cf c) int_part dec_part divisor in
         Ok (wrap (ct c) v, st)
       else
         let* v := c_shl (ct c) int_part (cf c) in
         Ok (wrap (ct c) v, st)) in
    let '(v, st) := r in
    if negative then let* n := fx_neg c v in Ok (n, st) else Ok (v, st).

(** ** io::parse (io/parse.hpp:19-88).  [mem] is the readable memory from [start] on; [stop] is
    the offset of the end pointer.  The loop condition compares the CHARACTERS [*start] and
    [*stop], so reading [*stop] must be possible.  The result is the offset of the returned
    pointer and the value of [out]. *)
Definition at_ (mem : list Z) (i : nat) : res Z :=
  match nth_error mem i with Some ch => Ok ch | None => UB end.

Fixpoint p_int_loop (term : Z) (s : list Z) (acc : Z) : res (option (Z * list Z)) :=
  match s with
  | [] => UB
  | ch :: s' =>
    if ch =? term then Ok (Some (acc, s))
    else if ch =? 46 then Ok (Some (acc, s))
    else if negb (check_ch ch) then Ok None
    else let* a := push_digit int32 acc ch in p_int_loop term s' a
  end.
Fixpoint p_dec_loop (term lim : Z) (s : list Z) (dec div : Z) : res (option (Z * Z * list Z)) :=
  match s with
  | [] => UB
  | ch :: s' =>
    if ch =? term then Ok (Some (dec, div, s))
    else if negb (check_ch ch) then Ok None
    else if c_lt int32 int32 lim dec then Ok (Some (dec, div, s))
    else
      let* dec' := push_digit int32 dec ch in
      let* dv := c_mul int32 int32 div 10 in
      p_dec_loop term lim s' dec' (wrap int32 dv)
  end.

Definition io_parse (mem : list Z) (stop : nat) (out : Z) : res (nat * Z) :=
  let* term := at_ mem stop in
  let* c0 := at_ mem 0 in
  let '(negative, s) := (if negb (c0 =? term) && (c0 =? 45) then (true, tl mem) else (false, mem)) in
  let* r := p_int_loop term s 0 in
  match r with
  | None => Ok (0%nat, out)
  | Some (int_part, s) =>
    let* c1 := at_ s 0 in
    let* r :=
      (if negb (c1 =? term) && (c1 =? 46) then
         let* one := c_shl int32 1 (cf F32) in
         let* max_fraction := c_sub int32 int32 one 1 in
         let* lim := c_div int32 int32 max_fraction 10 in
         let* r := p_dec_loop term lim (tl s) 0 1 in
         match r with
         | None => Ok None
         | Some (dec_part, divisor, s) =>
           let* v := combine int32 (cf F32) int_part dec_part divisor in
           Ok (Some (wrap int32 v, s))
         end
       else
         let* v := c_shl int32 int_part (cf F32) in
         Ok (Some (wrap int32 v, s))) in
    match r with
    | None => Ok (0%nat, out)
    | Some (v, s) =>
      let* v := (if negative then fx_neg F32 v else Ok v) in
      Ok ((length mem - length s)%nat, v)
    end
  end.
(** the string_view overload (parse.hpp:90-97): start and stop delimit the view; the characters
    after the view are [after] *)
Definition io_parse_view (view after : list Z) (out : Z) : res (nat * Z) :=
  io_parse (view ++ after) (length view) out.
