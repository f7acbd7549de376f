(** Model of include/eirin/random.hpp and include/eirin/detail/distribution.hpp. *)
From Coq Require Import ZArith Bool List.
From Verif Require Import Base Fixed TextOut.
Import ListNotations.
Open Scope Z_scope.

(** random.hpp:43-45: the template parameters of permuted_congruential_engine *)
Record pcg := { pu : ity; pstate : Z; pmul : Z; pinc : Z; pmix : Z; pxor : Z }.

(** random.hpp:253-254 *)
Definition pcg2014 : pcg :=
  {| pu := uint32; pstate := 0; pmul := 0xB5297A4D; pinc := 0x68E31DA4; pmix := 0x1B56C4E9; pxor := 0x92D68CA2 |}.
Definition pcg2014_64 : pcg :=
  {| pu := uint64; pstate := 0; pmul := 0x5851F42D4C957F2D; pinc := 0x9E3779B97F4A7C15; pmix := 0x94D049BB133111EB;
     pxor := 0xBF58476D1CE4E5B9 |}.

(** random.hpp:19, 43: UIntType is an unsigned integral type (is_unsigned_v) and the parameters are its values *)
Definition pcg_ok (p : pcg) : bool :=
  ity_ok (pu p) && negb (sgn (pu p)) && in_range (pu p) (pstate p) && in_range (pu p) (pmul p) && in_range (pu p) (pinc p) &&
  in_range (pu p) (pmix p) && in_range (pu p) (pxor p).

(** An oversized shift is undefined in C++; what a given platform makes of it is a parameter of the model, so that the
    rest of the engine can be studied.  [strict] is the language rule; [mask_shift] is what x86 and AArch64 scalar shifts
    do; [zero_shift] is what 32-bit ARM and vector shifts do (for counts below 256). *)
Definition platform := ity -> Z -> Z -> res Z.
Definition strict : platform := fun _ _ _ => UB.
Definition mask_shift : platform := fun t x s => Ok (Z.shiftr x (s mod bits t)).
Definition zero_shift : platform := fun _ _ _ => Ok 0.
Definition pl_shr (pl : platform) (t : ity) (x s : Z) : res Z :=
  match c_shr t x s with UB => pl (promote t) x s | r => r end.

Definition c_xor (t1 t2 : ity) (x y : Z) : Z := let t := uac t1 t2 in wrap t (Z.lxor (wrap t x) (wrap t y)).

(** random.hpp:51-56: mix_first, [x >>= 8 ^ x] *)
Definition mix_first (pl : platform) (p : pcg) (x : Z) : res Z :=
  let u := pu p in
  let* x := pl_shr pl u x (c_xor int32 u 8 x) in
  let x := wrap u x in
  let* x := c_add u u x (pinc p) in
  Ok (wrap u x).
(** random.hpp:58-63: _xor *)
Definition xor_step (p : pcg) (x : Z) : res Z :=
  let u := pu p in
  let* y := c_mul u int32 x 0x100 in
  let x := wrap u (c_xor (uac u int32) u y x) in
  let* x := c_mul u u x (pxor p) in
  Ok (wrap u x).
(** random.hpp:65-70: mix_second *)
Definition mix_second (pl : platform) (p : pcg) (x : Z) : res Z :=
  let u := pu p in
  let* x := pl_shr pl u x (c_xor int32 u 8 x) in
  let x := wrap u x in
  let* x := c_mul u u x (pmix p) in
  Ok (wrap u x).

(** random.hpp:48-49: the engine object *)
Record engine := { m_seed : Z; m_state : Z }.

(** random.hpp:72-78: generate; returns the draw and the new engine *)
Definition generate (pl : platform) (p : pcg) (e : engine) : res (Z * engine) :=
  let u := pu p in
  let* a := c_mul u u (m_state e) (pmul p) in
  let* b := c_add (uac u u) u a (m_seed e) in
  let val := wrap u b in
  let* v1 := mix_first pl p val in
  let* v2 := xor_step p v1 in
  let* v3 := mix_second pl p v2 in
  let st := wrap u (m_state e + 1) in
  let l := c_and u int32 v3 0x7FFFFFFE in
  let* r := c_shr u v3 8 in
  Ok (wrap u (c_xor (uac u int32) (promote u) l r), {| m_seed := m_seed e; m_state := st |}).
(** random.hpp:88, 90-94 *)
Definition default_seed := 0x89ABCD.
Definition new_default (p : pcg) : engine := {| m_seed := wrap (pu p) default_seed; m_state := pstate p |}.
Definition new_seeded (p : pcg) (s : Z) : engine := {| m_seed := s; m_state := pstate p |}.
(** random.hpp:96-99 *)
Definition draw := generate.
(** random.hpp:101-104 *)
Definition reseed (e : engine) (s : Z) : engine := {| m_seed := s; m_state := m_state e |}.
(** random.hpp:106-112: [s0], [s1] are the two 32-bit numbers the seed sequence produces *)
Definition reseed_seq (p : pcg) (e : engine) (s0 s1 : Z) : engine := {| m_seed := wrap (pu p) s0; m_state := wrap (pu p) s1 |}.
(** random.hpp:114-117: m_state += z with z an unsigned long long *)
Definition discard (p : pcg) (e : engine) (z : Z) : res engine :=
  let* s := c_add (pu p) uint64 (m_state e) z in
  Ok {| m_seed := m_seed e; m_state := wrap (pu p) s |}.
(** random.hpp:119-127 *)
Definition eng_min (p : pcg) : Z := minv (pu p).
Definition eng_max (p : pcg) : Z := maxv (pu p).
(** random.hpp:129-137 *)
Definition eng_eq (p : pcg) (a b : engine) : bool :=
  c_eq (pu p) (pu p) (m_seed a) (m_seed b) && c_eq (pu p) (pu p) (m_state a) (m_state b).
Definition eng_ne (p : pcg) (a b : engine) : bool := negb (eng_eq p a b).
(** Objects that exist: both members are values of UIntType. *)
Definition eng_ok (p : pcg) (e : engine) : bool := in_range (pu p) (m_seed e) && in_range (pu p) (m_state e).
(** [n] successive calls of operator(): the values in order, and the engine afterwards *)
Fixpoint draws (pl : platform) (p : pcg) (n : nat) (e : engine) : res (list Z * engine) :=
  match n with
  | O => Ok ([], e)
  | S k => let* r := draw pl p e in let* q := draws pl p k (snd r) in Ok (fst r :: fst q, snd q)
  end.

(** random.hpp:172-243: fixed_random_engine_adapter over [p].  line 183-186: operator() *)
Definition adapter_draw (pl : platform) (c : cfg) (p : pcg) (e : engine) : res (Z * engine) :=
  let* r := draw pl p e in
  let* m := from_fixed_num_value c (cf c) (ct c) (wrap (ct c) (fst r)) in
  Ok (m, snd r).
(** random.hpp:188-196 *)
Definition adapter_min (c : cfg) : Z := nl_min c.
Definition adapter_max (c : cfg) : Z := nl_max c.
(** random.hpp:180-181, 236-240: the adapter starts from a copy of a default-constructed engine that nothing modifies *)
Definition adapter_new (p : pcg) : engine := new_default p.

(** ---- detail/distribution.hpp ----

    The wrapped integer distribution (std::uniform_int_distribution<T>, standard library) is not repository code.  It is
    a parameter: its result type [dt] and its sampling function [sample a b g], which is only ever called on an object
    whose construction met the standard's precondition a <= b ([rand.dist.uni.int]); violating it is undefined. *)
Record sdist := { d_a : Z; d_b : Z }.
Definition sdist_new (a b : Z) : res sdist := if a <=? b then Ok {| d_a := a; d_b := b |} else UB.
(** distribution.hpp:41-79: param_type; the constructor asserts a <= b (line 48), which does nothing under NDEBUG *)
Record dparam := { q_a : Z; q_b : Z }.
Definition dparam_new (ndebug : bool) (c : cfg) (a b : Z) : res dparam :=
  if ndebug || fx_le c a b then Ok {| q_a := a; q_b := b |} else Throw terminated.
(** distribution.hpp:148-149: the adapter object *)
Record dist := { m_dist : sdist; m_param : dparam }.
(** distribution.hpp:87-89, 223-225: the converted bounds first initialise m_dist, then m_param *)
Definition dist_new (nd : bool) (c : cfg) (dt : ity) (a b : Z) : res dist :=
  let* d := sdist_new (wrap dt (wrap (ct c) a)) (wrap dt (wrap (ct c) b)) in
  let* q := dparam_new nd c a b in
  Ok {| m_dist := d; m_param := q |}.
(** the default arguments of lines 87 and 223 *)
Definition dist_default (nd : bool) (c : cfg) (dt : ity) : res dist := dist_new nd c dt (nl_min c) (nl_max c).
(** distribution.hpp:91-93, 227-229 *)
Definition dist_of_param (c : cfg) (dt : ity) (q : dparam) : res dist :=
  let* d := sdist_new (wrap dt (wrap (ct c) (q_a q))) (wrap dt (wrap (ct c) (q_b q))) in
  Ok {| m_dist := d; m_param := q |}.
(** distribution.hpp:101-107, 237-243: operator()(g, param): param is not used.  (The second adapter draws from the
    engine wrapped by fixed_random_engine_adapter, i.e. from the same kind of generator.) *)
Definition dist_draw_with {G} (sample : Z -> Z -> G -> Z * G) (c : cfg) (d : dist) (q : dparam) (g : G) : res (Z * G) :=
  let r := sample (d_a (m_dist d)) (d_b (m_dist d)) g in
  let* m := from_fixed_num_value c (cf c) (ct c) (wrap (ct c) (fst r)) in
  Ok (m, snd r).
(** distribution.hpp:95-99, 231-235 *)
Definition dist_draw {G} (sample : Z -> Z -> G -> Z * G) (c : cfg) (d : dist) (g : G) : res (Z * G) :=
  dist_draw_with sample c d (m_param d) g.
(** distribution.hpp:114-118, 250-254 *)
Definition dist_set_param (c : cfg) (dt : ity) (d : dist) (q : dparam) : res dist :=
  let* s := sdist_new (wrap dt (wrap (ct c) (q_a q))) (wrap dt (wrap (ct c) (q_b q))) in
  Ok {| m_dist := s; m_param := q |}.
(** distribution.hpp:109-112, 120-138 *)
Definition dist_param (d : dist) : dparam := m_param d.
Definition dist_min (d : dist) : Z := q_a (m_param d).
Definition dist_max (d : dist) : Z := q_b (m_param d).

(** random.hpp:139-147 operator<< (stream field width 0).  [show] is the standard library's decimal output of an unsigned
    integer; the basefield manipulation of line 143 selects decimal whatever the stream's previous base. *)
Definition stream_engine (show : Z -> list Z) (e : engine) : list Z := show (m_seed e) ++ 32 :: show (m_state e).
