(** C144, C145: the queries for processor features.  Only statements; the proofs are in CpuProofs.v. *)
From Coq Require Import ZArith Bool List.
From Verif Require Import SpecCpu Cpu CpuProofs.
Import ListNotations.
Open Scope Z_scope.

(** C144 any sequence of queries, on a processor that has the leaves asked about or answers zeros for those it has not *)
Theorem C144_ask p : 7 <= max_leaf p \/ beyond p = {| ebx := 0; ecx := 0; edx := 0 |} ->
  forall fs, Forall2 (fun f b => b = true <-> has p f) fs (fst (ask true p fs support0)).
Proof. exact (ask_has p). Qed.
Print Assumptions C144_ask.
(** C144 SSE2, SSE4.2 and AVX, on any processor with leaf 1 *)
Theorem C144_leaf1 p : 1 <= max_leaf p -> forall fs,
  Forall2 (fun f b => f = SSE2 \/ f = SSE4_2 \/ f = AVX -> (b = true <-> has p f)) fs (fst (ask true p fs support0)).
Proof. exact (ask_leaf1 p). Qed.
Print Assumptions C144_leaf1.
(** C144 on other architectures every answer is no *)
Theorem C144_other p fs : fst (ask false p fs support0) = map (fun _ => false) fs.
Proof. exact (ask_other p fs). Qed.
Print Assumptions C144_other.
(** C144 the processor is asked once: later answers do not change if the thread moves to another processor *)
Theorem C144_once x86 p p' f fs g : let s := snd (ask x86 p (f :: fs) support0) in
  supports x86 p' g s = supports x86 p g s /\ snd (supports x86 p' g s) = s.
Proof. exact (ask_once x86 p p' f fs g). Qed.
Print Assumptions C144_once.
(** C144 as stated is false: an Intel processor without leaf 7 answers with another leaf's bits *)
Theorem C144_intel_refuted : exists p f, p = intel (max_leaf p) (leaf_regs p) /\ 1 <= max_leaf p /\
  fst (supports true p f support0) = true /\ ~ has p f.
Proof. exact intel_refuted. Qed.
Print Assumptions C144_intel_refuted.
(** C144 a feature that is reported need not be usable: the operating system is not asked *)
Theorem C144_usable_refuted : exists p xcr0 f, 7 <= max_leaf p /\ fst (supports true p f support0) = true /\ ~ usable p xcr0 f.
Proof. exact usable_refuted. Qed.
Print Assumptions C144_usable_refuted.
Example C144_case : fst (ask true no_os [SSE2; AVX; AVX2; AVX] support0) = [true; true; false; true].
Proof. vm_compute. reflexivity. Qed.

(** C145 any number of threads, any interleaving: a feature that is reported is there *)
Theorem C145_no_false_positive p want w t : 7 <= max_leaf p \/ beyond p = {| ebx := 0; ecx := 0; edx := 0 |} ->
  steps p want world0 w -> threads w t = Done true -> has p (want t).
Proof. exact (no_false_positive p want w t). Qed.
Print Assumptions C145_no_false_positive.
(** C145 if one thread has finished its query before any other started, all later answers are right *)
Theorem C145_first_alone p want t0 w1 w2 : 7 <= max_leaf p \/ beyond p = {| ebx := 0; ecx := 0; edx := 0 |} ->
  steps p want world0 w1 -> (exists b, threads w1 t0 = Done b) -> (forall t, t <> t0 -> threads w1 t = Start) ->
  steps p want w1 w2 -> forall t b, threads w2 t = Done b -> (b = true <-> has p (want t)).
Proof. exact (first_alone p want t0 w1 w2). Qed.
Print Assumptions C145_first_alone.
Example C145_case : exists w, steps new_cpu wants world0 w /\ threads w 0%nat = Done true /\ forall t, t <> 0%nat -> threads w t = Start.
Proof. exact alone_case. Qed.
(** C145 as stated is false: a thread that comes while another one is detecting is told no *)
Theorem C145_early_refuted : exists p want w t, steps p want world0 w /\ 7 <= max_leaf p /\ has p (want t) /\ threads w t = Done false.
Proof. exact early_refuted. Qed.
Print Assumptions C145_early_refuted.
(** C145 worse: two simultaneous first queries can leave a feature that is there reported as missing for ever *)
Theorem C145_lost_refuted : exists p want w f, steps p want world0 w /\ 7 <= max_leaf p /\ has p f /\
  (forall t, (exists b, threads w t = Done b) \/ threads w t = Start) /\
  (forall w', steps p want w w' -> fst (supports true p f (stat w')) = false).
Proof. exact lost_refuted. Qed.
Print Assumptions C145_lost_refuted.
