(** Model of include/eirin/ext/simd_math.hpp:28-109: class platform_support.  The processor itself is in SpecCpu.v.  No
    proofs in this file. *)
From Coq Require Import ZArith Bool List.
From Verif Require Import SpecCpu.
Import ListNotations.
Open Scope Z_scope.

(** [(reg & (1 << b)) != 0] *)
Definition bit (r b : Z) : bool := negb (Z.land r (Z.shiftl 1 b) =? 0).
(** std::bitset<8>::set(pos, value) and test(pos) *)
Definition bset (w pos : Z) (v : bool) : Z := if v then Z.lor w (Z.shiftl 1 pos) else Z.land w (Z.lnot (Z.shiftl 1 pos)).
Definition btest (w pos : Z) : bool := negb (Z.land w (Z.shiftl 1 pos) =? 0).

(** simd_math.hpp:44-52: the value given to feature flag k, for k = 0..5 *)
Definition flag_value (p : cpu) (k : Z) : bool :=
  if k =? 0 then bit (edx (cpuid p 1)) 26
  else if k =? 1 then bit (ecx (cpuid p 1)) 20
  else if k =? 2 then bit (ecx (cpuid p 1)) 28
  else if k =? 3 then bit (ebx (cpuid p 7)) 5
  else if k =? 4 then bit (ebx (cpuid p 7)) 16
  else bit (ebx (cpuid p 7)) 17.

(** the two static members, simd_math.hpp:30, 34 *)
Record support := { features_detected : bool; features_flag : Z }.
Definition support0 : support := {| features_detected := false; features_flag := 0 |}.
(** simd_math.hpp:36-71 (the x86 branches; elsewhere nothing is set) *)
Definition detect_features (x86 : bool) (p : cpu) (s : support) : support :=
  if features_detected s then s
  else if x86 then
    {| features_detected := true;
       features_flag := fold_left (fun w k => bset w k (flag_value p k)) [0; 1; 2; 3; 4; 5] (features_flag s) |}
  else {| features_detected := true; features_flag := features_flag s |}.
(** the query of a feature: the bit tested, simd_math.hpp:77, 83, 89, 95, 101, 107 *)
Definition query (f : feature) : Z :=
  match f with SSE2 => 0 | SSE4_2 => 1 | AVX => 2 | AVX2 => 3 | AVX512F => 4 | AVX512DQ => 5 end.
(** simd_math.hpp:74-108: supports_sse2 .. supports_avx512_dq *)
Definition supports (x86 : bool) (p : cpu) (f : feature) (s : support) : bool * support :=
  let s := detect_features x86 p s in (btest (features_flag s) (query f), s).
(** a program asking several times *)
Fixpoint ask (x86 : bool) (p : cpu) (ks : list feature) (s : support) : list bool * support :=
  match ks with
  | [] => ([], s)
  | k :: r => let '(b, s) := supports x86 p k s in let '(bs, s) := ask x86 p r s in (b :: bs, s)
  end.

(** ** Several threads.  Each thread executes one call of supports; its program counter is the next access to a static
    member.  The accesses are interleaved arbitrarily, each seeing the latest write.  (The C++ memory model is less
    generous: unsynchronised accesses are undefined behaviour.) *)
Inductive pc :=
| Start                    (* read features_detected, line 38 *)
| Mark                     (* write features_detected, line 40 *)
| Read (i : Z)             (* bitset::set(i, ..): read the word *)
| Write (i : Z) (w : Z)    (* .. and write it back changed *)
| Test                     (* features_flag.test(..) *)
| Done (answer : bool).
Record world := { stat : support; threads : nat -> pc }.
Definition upd (f : nat -> pc) (t : nat) (v : pc) : nat -> pc := fun t' => if Nat.eqb t' t then v else f t'.
(** [want t] is the feature thread t asks for *)
Inductive step (p : cpu) (want : nat -> feature) : world -> world -> Prop :=
| st_start s th t : th t = Start ->
    step p want {| stat := s; threads := th |}
      {| stat := s; threads := upd th t (if features_detected s then Test else Mark) |}
| st_mark s th t : th t = Mark ->
    step p want {| stat := s; threads := th |}
      {| stat := {| features_detected := true; features_flag := features_flag s |}; threads := upd th t (Read 0) |}
| st_read s th t i : th t = Read i ->
    step p want {| stat := s; threads := th |} {| stat := s; threads := upd th t (Write i (features_flag s)) |}
| st_write s th t i w : th t = Write i w ->
    step p want {| stat := s; threads := th |}
      {| stat := {| features_detected := features_detected s; features_flag := bset w i (flag_value p i) |};
         threads := upd th t (if i <? 5 then Read (i + 1) else Test) |}
| st_test s th t : th t = Test ->
    step p want {| stat := s; threads := th |} {| stat := s; threads := upd th t (Done (btest (features_flag s) (query (want t)))) |}.
Inductive steps (p : cpu) (want : nat -> feature) : world -> world -> Prop :=
| steps_refl w : steps p want w w
| steps_step w1 w2 w3 : steps p want w1 w2 -> step p want w2 w3 -> steps p want w1 w3.
Definition world0 : world := {| stat := support0; threads := fun _ => Start |}.
