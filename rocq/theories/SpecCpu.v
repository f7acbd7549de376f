(** Specification vocabulary for processor features (Intel SDM vol. 2A, CPUID).  No model file is imported. *)
From Coq Require Import ZArith Bool List.
Open Scope Z_scope.

(** The processor: the highest basic CPUID leaf, the registers of each leaf, and what it answers for a leaf above the highest.
    Intel processors answer with the data of the highest leaf, AMD processors with zeros. *)
Record regs := { ebx : Z; ecx : Z; edx : Z }.
Record cpu := { max_leaf : Z; leaf_regs : Z -> regs; beyond : regs }.
Definition intel (mx : Z) (r : Z -> regs) : cpu := {| max_leaf := mx; leaf_regs := r; beyond := r mx |}.
Definition amd (mx : Z) (r : Z -> regs) : cpu := {| max_leaf := mx; leaf_regs := r; beyond := {| ebx := 0; ecx := 0; edx := 0 |} |}.
(** the instruction *)
Definition cpuid (p : cpu) (leaf : Z) : regs := if leaf <=? max_leaf p then leaf_regs p leaf else beyond p.

(** the features asked about, in the order of the queries *)
Inductive feature := SSE2 | SSE4_2 | AVX | AVX2 | AVX512F | AVX512DQ.
(** the processor has the feature *)
Definition has (p : cpu) (f : feature) : Prop :=
  match f with
  | SSE2 => 1 <= max_leaf p /\ Z.testbit (edx (leaf_regs p 1)) 26 = true
  | SSE4_2 => 1 <= max_leaf p /\ Z.testbit (ecx (leaf_regs p 1)) 20 = true
  | AVX => 1 <= max_leaf p /\ Z.testbit (ecx (leaf_regs p 1)) 28 = true
  | AVX2 => 7 <= max_leaf p /\ Z.testbit (ebx (leaf_regs p 7)) 5 = true
  | AVX512F => 7 <= max_leaf p /\ Z.testbit (ebx (leaf_regs p 7)) 16 = true
  | AVX512DQ => 7 <= max_leaf p /\ Z.testbit (ebx (leaf_regs p 7)) 17 = true
  end.
(** and the operating system saves the registers the instructions use: OSXSAVE is set and XCR0 has the state bits *)
Definition usable (p : cpu) (xcr0 : Z) (f : feature) : Prop :=
  has p f /\
  match f with
  | SSE2 | SSE4_2 => True
  | AVX | AVX2 => Z.testbit (ecx (leaf_regs p 1)) 27 = true /\ Z.land xcr0 6 = 6
  | AVX512F | AVX512DQ => Z.testbit (ecx (leaf_regs p 1)) 27 = true /\ Z.land xcr0 230 = 230
  end.
